(* `ThreePointWindow` of winconv.py: construction from paired samples,
   resampling and subselection.
   /repo/src/triumvirate/winconv.py 891-950, 1033-1070, 1121-1265 and
   /repo/src/triumvirate/transforms.py 526-704. *)
From Coq Require Import Reals ZArith List Lia Lra Bool.
From Verif Require Import Base ArrayModel Array2dModel ReshapeModel MultipoleModel.
Import ListNotations.
Local Open Scope R_scope.

(** A dictionary keyed by multipoles, in insertion order.  `Multipole` hashes
    and compares by its index (winconv.py 260-266). *)
Definition mdict (A : Type) : Type := list (list Z * A).

Fixpoint lookup {A} (d : mdict A) (k : list Z) : res A :=
  match d with
  | [] => Err KeyError
  | (k', a) :: r => if meq k' k then Ok a else lookup r k
  end.

(** `d[k] = a`: an existing entry keeps its place. *)
Fixpoint store {A} (d : mdict A) (k : list Z) (a : A) : mdict A :=
  match d with
  | [] => [(k, a)]
  | (k', a') :: r => if meq k' k then (k', a) :: r else (k', a') :: store r k a
  end.

(** `self.r` is meant to be a dictionary of arrays; `subselect` can leave a
    single array in its place (1205), which `load_from_dict` takes as is. *)
Inductive points :=
| ByPole (d : mdict (list R))
| OneArray (a : list R).

Record window := mk_window {
  w_r : points;
  w_Q : mdict matrix;
  w_Q_diag : mdict (list R);
  w_multipoles : list (list Z) }.

(** `self.r[multipole]`; numpy refuses an index that is no integer, slice or
    array with IndexError. *)
Definition r_of (w : window) (m : list Z) : res (list R) :=
  match w_r w with
  | ByPole d => lookup d m
  | OneArray _ => Err IndexError
  end.

(** `np.diag` of a 2-d array. *)
Definition diag (m : matrix) : list R :=
  map (fun i => nth i (nth i m []) 0)
      (seq 0 (Nat.min (length m) (length (nth 0 m [])))).

(** A dictionary comprehension over items, and one over keys. *)
Definition on_items {A B} (f : list Z -> A -> res B) (d : mdict A) : res (mdict B) :=
  sequence (map (fun ka => b <- f (fst ka) (snd ka) ;; Ok (fst ka, b)) d).

Definition on_keys {B} (f : list Z -> res B) (ks : list (list Z)) : res (mdict B) :=
  l <- sequence (map (fun k => b <- f k ;; Ok (k, b)) ks) ;;
  Ok (fold_left (fun d kb => store d (fst kb) (snd kb)) l []).

Definition diags (Q : mdict matrix) : mdict (list R) :=
  map (fun kq => (fst kq, diag (snd kq))) Q.

(* ------------------------------------------------------------------ *)
(* Resampling                                                          *)

(** `np.linspace(a, b, num)` with num >= 0 (a negative number is a
    ValueError): a single point is the lower end. *)
Definition linspace (a b : R) (num : Z) : res (list R) :=
  if (num <? 0)%Z then Err ValueError
  else if (num =? 1)%Z then Ok [a]
  else Ok (map (fun i => a + IZR (Z.of_nat i) * ((b - a) / IZR (num - 1)))
               (seq 0 (Z.to_nat num))).

(** `np.logspace(np.log10(a), np.log10(b), num, base=10)`; log10 of a number
    that is not positive is NaN or -inf, and so are the points. *)
Definition log10 (x : R) : R := ln x / ln 10.
Definition logspace (a b : R) (num : Z) : res (list R) :=
  if (num <? 0)%Z then Err ValueError
  else if Rleb a 0 || Rleb b 0 then Err NotANumber
  else l <- linspace (log10 a) (log10 b) num ;; Ok (map (fun x => Rpower 10 x) l).

(** `size or len(sampts)`: None and 0 both give the length; a bool is an
    integer, `True` being 1 for numpy's `num`. *)
Definition size_or (size : option Z) (n : nat) : Z :=
  match size with
  | None => Z.of_nat n
  | Some 0%Z => Z.of_nat n
  | Some z => z
  end.

Inductive spacing := LgLin | Lin | OtherSpacing.

Section Spline.
(** `RectBivariateSpline(x, x, samples, kx, ky)`: construction may fail;
    otherwise a function of two coordinates.  Nothing else is assumed. *)
Variable spline : list R -> matrix -> res (R -> R -> R).

(** `resample_lglin` and `resample_lin`, transforms.py 566-614 and 657-704,
    for square 2-d samples at a 1-d array of points (`samples.ndim == 2`).
    `np.squeeze` makes a 1x1 array 0-d, which is refused (613, 703); an empty
    array of points fails at `sampts[0][0]`. *)
Definition resampler (s : spacing) (sampts : list R) (samples : matrix)
    (size : option Z) : res (list R * matrix) :=
  if (length samples =? 1)%nat then Err ValueError
  else match sampts with
  | [] => Err IndexError
  | _ =>
    let num := size_or size (length sampts) in
    resampts <- (match s with
                 | LgLin => logspace (at0 sampts) (atm1 sampts) num
                 | _ => linspace (at0 sampts) (atm1 sampts) num
                 end) ;;
    f <- spline sampts samples ;;
    Ok (resampts, map (fun x => map (fun y => f x y) resampts) resampts)
  end.

(** `ThreePointWindow.resample`, winconv.py 1229-1265, for one size. *)
Definition resample (w : window) (s : spacing) (size : option Z) : res window :=
  match s with
  | OtherSpacing => Err ValueError
  | _ =>
    rQ <- on_items (fun m q => r <- r_of w m ;; resampler s r q size) (w_Q w) ;;
    let Q' := map (fun kv => (fst kv, snd (snd kv))) rQ in
    Ok (mk_window (ByPole (map (fun kv => (fst kv, fst (snd kv))) rQ))
                  Q' (diags Q') (w_multipoles w))
  end.

(** The `make_loglin` argument: a bool or an integer (or anything else, which
    only its truth value is asked of). *)
Inductive loglin_arg := ABool (b : bool) | AInt (z : Z) | AOther (truth : bool).

Definition truthy (a : loglin_arg) : bool :=
  match a with ABool b => b | AInt z => negb (z =? 0)%Z | AOther t => t end.

(** `make_loglin if isinstance(make_loglin, int) else None`, 943: bool is a
    subclass of int. *)
Definition loglin_size (a : loglin_arg) : option Z :=
  match a with
  | ABool b => Some (if b then 1 else 0)%Z
  | AInt z => Some z
  | AOther _ => None
  end.

(** `_check_1d_array(rQ_, check_loglin=True)` over `self.r.values()`, 936-938. *)
Definition check_points (d : mdict (list R)) : res unit :=
  _ <- sequence (map (fun kr => check_1d_array false false false true (snd kr)) d) ;;
  Ok tt.

(** 935-950: the spacing check of a window just built.  (The warning of the
    last branch is not an effect on the window.) *)
Definition loglin_step (w : window) (d : mdict (list R)) (make_loglin : loglin_arg)
    : res window :=
  match check_points d with
  | Ok _ => Ok w
  | Err MixedSignError | Err SpacingError =>
      if truthy make_loglin then resample w LgLin (loglin_size make_loglin)
      else Ok w
  | Err e => Err e
  end.

(** `ThreePointWindow.__init__`, winconv.py 891-950, with the points and the
    flattened samples of each multipole (894-898 give every multipole the
    same points when they are not a dictionary). *)
Definition init (poles : list (mlike * (list (list R) * list R))) (alpha : R)
    (make_loglin : loglin_arg) : res window :=
  l <- sequence (map (fun p =>
         m <- multipole (fst p) ;;
         sym <- issym m ;;
         rq <- reshape_threept_datatab true (fst (snd p)) (snd (snd p))
                 (if sym then Triu else Full) ;;
         Ok (m, (fst rq, map (map (fun x => alpha ^ 2 * x)) (snd rq)))) poles) ;;
  let both := fold_left (fun d kv => store d (fst kv) (snd kv)) l [] in
  let r := map (fun kv => (fst kv, fst (snd kv))) both in
  let Q := map (fun kv => (fst kv, snd (snd kv))) both in
  ms <- msorted (map fst l) ;;
  loglin_step (mk_window (ByPole r) Q (diags Q) ms) r make_loglin.

End Spline.

(* ------------------------------------------------------------------ *)
(* Subselection                                                        *)

(** `load_from_dict`, winconv.py 1033-1070, for keys that are multipoles. *)
Definition load_from_dict (r : points) (Q : mdict matrix) : res window :=
  ms <- msorted (map fst Q) ;;
  Ok (mk_window r Q (diags Q) ms).

(** The `rrange` and `idxrange` arguments. *)
Inductive rrange_arg :=
| RNone
| RTuple (rmin rmax : option R)
| RDict (l : list (mlike * (option R * option R))).

Inductive idx_arg :=
| INone
| ITuple (start stop : option Z)
| IDict (l : list (mlike * (option Z * option Z))).

(** `rmin or 0.` and `rmax or np.inf` (None standing for infinity): zero is
    false as well. *)
Definition lower_or (rmin : option R) : R :=
  match rmin with None => 0 | Some x => if Reqb x 0 then 0 else x end.
Definition upper_or (rmax : option R) : option R :=
  match rmax with None => None | Some x => if Reqb x 0 then None else Some x end.

Definition below (x : R) (rmax : option R) : bool :=
  match rmax with None => true | Some b => Rleb x b end.

(** `self.r[key]` for a key as the caller wrote it: only a `Multipole` equals
    the keys of the dictionary. *)
Definition r_raw (w : window) (k : mlike) : res (list R) :=
  match k with
  | MCopy idx => r_of w idx
  | _ => match w_r w with ByPole _ => Err KeyError | OneArray _ => Err IndexError end
  end.

(** 1148-1172.  In the dictionary branch, comparing None with an array is a
    TypeError. *)
Definition select_range (w : window) (a : rrange_arg) : res (mdict (list bool)) :=
  match a with
  | RNone => on_keys (fun m => r <- r_of w m ;; Ok (map (fun _ => true) r)) (w_multipoles w)
  | RDict l =>
      kbs <- sequence (map (fun e =>
               m <- multipole (fst e) ;;
               r <- r_raw w (fst e) ;;
               match snd e with
               | (Some lo, Some hi) => Ok (m, map (fun x => Rleb lo x && Rleb x hi) r)
               | _ => Err TypeError
               end) l) ;;
      Ok (fold_left (fun d kb => store d (fst kb) (snd kb)) kbs [])
  | RTuple rmin rmax =>
      on_keys (fun m => r <- r_of w m ;;
        Ok (map (fun x => Rleb (lower_or rmin) x && below x (upper_or rmax)) r))
        (w_multipoles w)
  end.

(** `a[slice(start, stop)] = True` on an array of n bools: bounds below zero
    count from the end, and both are clipped to [0, n]. *)
Definition clip (n : nat) (z : Z) : Z :=
  let z := (if z <? 0 then z + Z.of_nat n else z)%Z in
  Z.max 0 (Z.min z (Z.of_nat n)).
Definition slice_mask (n : nat) (start stop : option Z) : list bool :=
  let lo := match start with None => 0%Z | Some z => clip n z end in
  let hi := match stop with None => Z.of_nat n | Some z => clip n z end in
  map (fun i => (lo <=? Z.of_nat i)%Z && (Z.of_nat i <? hi)%Z) (seq 0 n).

(** 1174-1197.  [hashable] tells whether slices can be dictionary keys (they
    can from Python 3.12 on); otherwise 1190 is a TypeError, and if they can
    the entry it makes is never read. *)
Definition select_idx (hashable : bool) (w : window) (a : idx_arg)
    : res (mdict (list bool)) :=
  let full b := on_keys (fun m => r <- r_of w m ;; Ok (map (fun _ => b) r)) (w_multipoles w) in
  match a with
  | INone => full true
  | IDict l =>
      d <- full true ;;
      fold_left (fun acc e =>
        d <- acc ;;
        m <- multipole (fst e) ;;
        r <- r_of w m ;;
        if hashable then Ok (store d m (map (fun _ => false) r)) else Err TypeError) l (Ok d)
  | ITuple start stop =>
      on_keys (fun m => r <- r_of w m ;; Ok (slice_mask (length r) start stop)) (w_multipoles w)
  end.

(** What the name `multipole` is bound to at 1205: the loop of 1195 is the only
    statement of the function that binds it (comprehensions have a scope of
    their own). *)
Definition leaked (w : window) (a : idx_arg) : option (list Z) :=
  match a with
  | ITuple _ _ => match rev (w_multipoles w) with [] => None | m :: _ => Some m end
  | _ => None
  end.

(** `np.logical_and` of two masks (they have the length of the points). *)
Definition mask_and (a b : list bool) : list bool := map (fun p => fst p && snd p) (combine a b).

(** `a[mask]`: IndexError unless the lengths agree. *)
Definition keep {A} (mask : list bool) (a : list A) : res (list A) :=
  if (length mask =? length a)%nat
  then Ok (map snd (filter fst (combine mask a)))
  else Err IndexError.

(** `Q[mask, :][:, mask]`. *)
Definition keep2 (mask : list bool) (m : matrix) : res matrix :=
  rows <- keep mask m ;; sequence (map (keep mask) rows).

(** 1199-1203. *)
Definition selectors (hashable : bool) (w : window) (rr : rrange_arg) (ir : idx_arg)
    : res (mdict (list bool)) :=
  sr <- select_range w rr ;;
  si <- select_idx hashable w ir ;;
  on_keys (fun m => a <- lookup sr m ;; b <- lookup si m ;; Ok (mask_and a b)) (w_multipoles w).

(** `subselect(..., inplace=True)`: the window left behind, 1217-1227. *)
Definition subselect_inplace (hashable : bool) (w : window) (rr : rrange_arg) (ir : idx_arg)
    : res window :=
  sel <- selectors hashable w rr ir ;;
  r' <- on_keys (fun m => r <- r_of w m ;; b <- lookup sel m ;; keep b r) (w_multipoles w) ;;
  Q' <- on_items (fun m q => b <- lookup sel m ;; keep2 b q) (w_Q w) ;;
  Ok (mk_window (ByPole r') Q' (diags Q') (w_multipoles w)).

(** `subselect(..., inplace=False)`: the window returned, 1204-1215. *)
Definition subselect_new (hashable : bool) (w : window) (rr : rrange_arg) (ir : idx_arg)
    : res window :=
  sel <- selectors hashable w rr ir ;;
  m <- (match leaked w ir with None => Err NameError | Some m => Ok m end) ;;
  r <- r_of w m ;;
  b <- lookup sel m ;;
  r' <- keep b r ;;
  Q' <- on_items (fun m q => b <- lookup sel m ;; keep2 b q) (w_Q w) ;;
  load_from_dict (OneArray r') Q'.
