(* Model of /repo/src/triumvirate/transforms.py 35-523 (the classes
   SphericalBesselTransform and DoubleSphericalBesselTransform) and of the
   extension class HankelTransform, /repo/src/triumvirate/_fftlog.pyx 17-145.
   What happens to the caller's array is part of the result of a call.  NaN
   entries are not represented: a call that makes some returns [NotANumber]. *)
From Coq Require Import String Reals ZArith List Lia Lra Bool.
From Flocq Require Import Core.Raux.
From Coquelicot Require Import Complex.
From Verif Require Import Base ArrayModel Array2dModel OscilModel Dft FftlogModel.
Import ListNotations.
Local Open Scope R_scope.

(* ------------------------------------------------------------------ *)
(* _fftlog.pyx                                                         *)

(** Exceptions of `initialise` and `biased_transform`, which the interface
    declares `except +` (_fftlog.pxd 24-31): invalid_argument and its subclass
    InvalidParameterError become ValueError. *)
Definition translate {A} (r : res A) : res A :=
  match r with
  | Err InvalidParameter => Err ValueError
  | r => r
  end.

(** The constructor is declared without `except +` (22): what it throws
    cannot reach Python and ends the process. *)
Definition untranslated {A} (r : res A) : res A :=
  match r with
  | Err _ => Err Terminated
  | r => r
  end.

(** `HankelTransform.__cinit__`, 69-89. *)
Definition py_hankel (g : gsl) (mu q : R) (x : list R) (kr_c : R) (lowring : bool)
    (ext : Z) (extrap_exp : R) : res hankel :=
  x <- check_1d_array false false false true x ;;
  _ <- untranslated (construct mu q) ;;
  translate (initialise g mu q x kr_c lowring ext extrap_exp).

(** `HankelTransform.transform`, 108-145: the result array has the length of
    the samples, of which `nsamp` entries are written. *)
Definition py_hankel_transform (h : hankel) (fx : list C) : res (list R * list C) :=
  b <- translate (biased_transform h fx) ;;
  Ok (post_sampts h, b ++ repeat (RtoC 0) (length fx - nsamp h)).

(* ------------------------------------------------------------------ *)
(* SphericalBesselTransform                                            *)

Inductive layer := Native | Outer | OtherLayer.

Record sbt := mk_sbt {
  s_degree : Z;
  s_extrap : Z;
  s_layer : layer;
  s_next : Z;
  s_fbht : hankel;
  s_pre : list R;                        (* _pre_sampts *)
  s_post : list R                        (* _post_sampts, trimmed *)
}.

(** `int(2 ** np.ceil(np.log2(x)))`, 119 and 383: `int` of NaN is a
    ValueError. *)
Definition py_size (x : R) : res Z :=
  if Rltb x 0 then Err ValueError
  else if Reqb x 0 then Ok 0%Z
  else let e := Zceil (ln x / ln 2) in Ok (if (e <? 0)%Z then 0%Z else (2 ^ e)%Z).

(** `a[lo:hi]`: bounds below zero count from the end, and are clipped. *)
Definition bound (n : nat) (z : Z) : nat :=
  Z.to_nat (Z.max 0 (Z.min (if z <? 0 then z + Z.of_nat n else z) (Z.of_nat n)))%Z.
Definition cut {A} (l : list A) (lo hi : Z) : list A :=
  firstn (bound (length l) hi - bound (length l) lo) (skipn (bound (length l) lo) l).

(** 148-149: `_post_slice`. *)
Definition post_slice {A} (n_ext : Z) (l : list A) : list A :=
  if (n_ext =? 0)%Z then l else cut l n_ext (- n_ext).

(** `__init__`, 106-156. *)
Definition sbt_init (g : gsl) (degree bias_ : Z) (sample_pts : list R) (pivot_ : R) (lowring : bool)
    (ext : Z) (extrap_exp : R) (l : layer) : res sbt :=
  if negb ((0 <=? ext) && (ext <=? 5))%Z then Err ValueError
  else
    prep <- (if (ext =? 0)%Z then Ok (0%Z, 0%Z, sample_pts)
             else if Nat.odd (length sample_pts) then Err ValueError
             else match l with
                  | Native => Ok (ext, 0%Z, sample_pts)
                  | Outer =>
                    nt <- py_size (extrap_exp * INR (length sample_pts)) ;;
                    let e := ((nt - Z.of_nat (length sample_pts)) / 2)%Z in
                    p <- extrap_loglin sample_pts e ;;
                    Ok (0%Z, e, p)
                  | OtherLayer => Err ValueError
                  end) ;;
    let '(native, e, p) := prep in
    h <- py_hankel g (IZR degree + 1 / 2) (IZR bias_) p pivot_ lowring native extrap_exp ;;
    Ok (mk_sbt degree ext l e h (pre_sampts h) (post_slice e (post_sampts h))).

(** What the caller hands over: a numpy array of floats, of complex numbers or
    of integers, or a list of numbers. *)
Inductive kind := FloatArr | ComplexArr | IntArr | PyList.

(** `_perform_extrap`, 241-267, for real samples ("assumed to be real if
    extrapolation is used"): always a new array. *)
Definition perform_extrap (t : sbt) (a : list R) : res (list R) :=
  if (s_extrap t =? 1)%Z then extrap_pad a (s_next t) 0 0
  else if (s_extrap t =? 2)%Z then
    match a with
    | [] => Err IndexError
    | _ => extrap_pad a (s_next t) (at0 a) (atm1 a)
    end
  else if (s_extrap t =? 3)%Z then extrap_lin a (s_next t)
  else if (s_extrap t =? 4)%Z then extrap_loglin a (s_next t)
  else if (s_extrap t =? 5)%Z then o <- extrap_loglin_oscil a (s_next t) ;; Ok (fst o)
  else Ok a.

(** Constant and linear extrapolation of integers stay integers. *)
Definition kind_after (t : sbt) (k : kind) : kind :=
  match k with
  | IntArr => if (s_extrap t =? 2)%Z || (s_extrap t =? 3)%Z then IntArr else FloatArr
  | _ => FloatArr
  end.

(** `pre_samples *= self._pre_sampts ** (3./2)`, 199.  Arrays of floats or
    complex numbers are multiplied in place, and must have the right length;
    for integers the product cannot be stored; a list is left alone, the
    name being bound to a new array (a single number is broadcast). *)
Definition weigh (w : list R) (a : list C) : res (list C) :=
  if existsb (fun x => Rleb x 0) w then Err NotANumber
  else Ok (map (fun j => nth j a (RtoC 0) * RtoC (Rpower (nth j w 0) (3 / 2)))%C (seq 0 (length w))).

(** The caller's array afterwards, and the product. *)
Definition imul (k : kind) (w : list R) (a : list C) : res (list C) * res (list C) :=
  match k with
  | IntArr => (Ok a, Err TypeError)
  | PyList =>
    (Ok a, if (length a =? length w)%nat then weigh w a
           else if (length a =? 1)%nat then weigh w (repeat (nth 0 a (RtoC 0)) (length w))
           else Err ValueError)
  | _ =>
    if (length a =? length w)%nat then (weigh w a, weigh w a) else (Ok a, Err ValueError)
  end.

(** 201-208: after the product. *)
Definition finish (t : sbt) (a : list C) : res (list R * list C) :=
  yg <- py_hankel_transform (s_fbht t) a ;;
  let y := post_slice (s_next t) (fst yg) in
  let gy := post_slice (s_next t) (snd yg) in
  Ok (y, map (fun j => nth j gy (RtoC 0) * RtoC (Rpower (2 * PI / nth j (s_post t) 0) (3 / 2)))%C
             (seq 0 (length gy))).

(** `transform`, 180-208. *)
Definition transform (t : sbt) (k : kind) (a : list C) : res (list C) * res (list R * list C) :=
  match s_layer t, (s_extrap t =? 0)%Z with
  | Outer, false =>
    (Ok a, v <- perform_extrap t (map fst a) ;;
           p <- snd (imul (kind_after t k) (s_pre t) (map RtoC v)) ;;
           finish t p)
  | _, _ =>
    let (after, p) := imul k (s_pre t) a in
    (after, p <- p ;; finish t p)
  end.

(** The direction argument: a string, a number, or something unhashable. *)
Inductive direction := DStr (s : string) | DNum (z : Z) | DUnhashable.
Definition is_dir (d : direction) (s : string) (z : Z) : bool :=
  match d with
  | DStr s' => String.eqb s s'
  | DNum z' => (z =? z')%Z
  | DUnhashable => false
  end.

(** Prefactors of 229-236 (one degree) and 491-498 (a list of degrees). *)
Definition py_prefactor (total_degree : Z) (dims : nat) (d : direction) : res C :=
  match d with
  | DUnhashable => Err TypeError
  | _ =>
    if is_dir d "forward" 1 then Ok (RtoC 1 * Cpowz (- Ci) total_degree)%C
    else if is_dir d "backward" (-1) then
      Ok (RtoC (/ (2 * PI) ^ (3 * dims)) * Cpowz Ci total_degree)%C
    else Err ValueError
  end.

(** `transform_cosmo_multipoles`, 210-239. *)
Definition multipoles (t : sbt) (d : direction) (k : kind) (a : list C)
    : res (list C) * res (list R * list C) :=
  match py_prefactor (s_degree t) 1 d with
  | Err e => (Ok a, Err e)
  | Ok f =>
    let (after, r) := transform t k a in
    (after, r <- r ;; Ok (fst r, map (fun z => z * f)%C (snd r)))
  end.

(* ------------------------------------------------------------------ *)
(* DoubleSphericalBesselTransform                                      *)

Inductive extrap_arg := EInt (z : Z) | ETuple (z0 z1 : Z).

Record dsbt := mk_dsbt {
  d_degrees : list Z;
  d_extrap : Z;
  d_extrap2d : bool;
  d_next : Z;
  d_t : list sbt;                        (* _fbsjt *)
  d_post : list R
}.

(** `__init__`, 360-413.  The one-dimensional transforms are made with the
    default layer, 'outer' (391-399), whatever the dimension. *)
Definition dsbt_init (g : gsl) (degrees biases : list Z) (sample_pts : list R) (pivot_ : R)
    (lowring : bool) (ext : extrap_arg) (extrap_exp : R) (extrap2d : bool) : res dsbt :=
  match ext with
  | ETuple _ _ => Err ValueError
  | EInt ext =>
    if negb ((0 <=? ext) && (ext <=? 5))%Z then Err ValueError
    else
      prep <- (if (ext =? 0)%Z then Ok (0%Z, 0%Z, sample_pts)
               else if Nat.odd (length sample_pts) then Err ValueError
               else if negb extrap2d then Ok (ext, 0%Z, sample_pts)
               else
                 nt <- py_size (extrap_exp * INR (length sample_pts)) ;;
                 let e := ((nt - Z.of_nat (length sample_pts)) / 2)%Z in
                 p <- extrap_loglin sample_pts e ;;
                 Ok (0%Z, e, p)) ;;
      let '(native, e, p) := prep in
      ts <- sequence (map (fun db => sbt_init g (fst db) (snd db) p pivot_ lowring native extrap_exp Outer)
                          (combine degrees biases)) ;;
      match ts with
      | [] => Err IndexError
      | t0 :: _ => Ok (mk_dsbt degrees ext extrap2d e ts (post_slice e (s_post t0)))
      end
  end.

(** 426-434: `pivot` asks the one-dimensional transforms for `_pivot`, an
    attribute they do not have. *)
Definition d_pivot (d : dsbt) : res (R * R) :=
  match d_t d with
  | [] => Err IndexError
  | _ => Err AttributeError
  end.

Definition cmatrix := list (list C).
Definition ctranspose (m : cmatrix) : cmatrix :=
  map (fun j => map (fun row => nth j row (RtoC 0)) m) (seq 0 (length (nth 0 m []))).

(** `_perform_extrap`, 506-523. *)
Definition d_perform_extrap (d : dsbt) (m : matrix) : res matrix :=
  if (d_extrap d =? 1)%Z then
    extrap2d_pad m (ExtInt (d_next d)) (PadScalar 0) (PadScalar 0) (PadScalar 0) (PadScalar 0)
  else if (d_extrap d =? 2)%Z then
    extrap2d_pad m (ExtInt (d_next d)) (PadSeq (map at0 m)) (PadSeq (map atm1 m))
      (PadSeq (nth 0 m [])) (PadSeq (nth (length m - 1) m []))
  else if (d_extrap d =? 3)%Z then extrap2d_lin m (ExtInt (d_next d))
  else if (d_extrap d =? 4)%Z then extrap2d_loglin m (ExtInt (d_next d))
  else if (d_extrap d =? 5)%Z then extrap2d_loglin_oscil m (ExtInt (d_next d))
  else Ok m.

(** 457-460 (and 463-465): one row after the other, each a view of the array
    it belongs to; a failing row leaves the later ones alone. *)
Fixpoint rows (t : sbt) (k : kind) (m : cmatrix) : res cmatrix * res cmatrix :=
  match m with
  | [] => (Ok [], Ok [])
  | row :: m =>
    let (after, r) := transform t k row in
    match r with
    | Err e => (a <- after ;; Ok (a :: m), Err e)
    | Ok yg =>
      let (after', r') := rows t k m in
      (a <- after ;; a' <- after' ;; Ok (a :: a'), q <- r' ;; Ok (snd yg :: q))
    end
  end.

(** `transform`, 436-474. *)
Definition d_transform (d : dsbt) (k : kind) (m : cmatrix)
    : res cmatrix * res ((list R * list R) * cmatrix) :=
  let inner (k : kind) (m : cmatrix) : res cmatrix * res ((list R * list R) * cmatrix) :=
    match d_t d with
    | t0 :: t1 :: _ =>
      let (after, inter) := rows t1 k m in
      (after,
       inter <- inter ;;
       match inter with
       | [] => Err IndexError
       | _ =>
         post_T <- snd (rows t0 ComplexArr (ctranspose inter)) ;;
         Ok ((d_post d, d_post d),
             map (post_slice (d_next d)) (post_slice (d_next d) (ctranspose post_T)))
       end)
    | _ => (Ok m, Err IndexError)
    end in
  if d_extrap2d d then
    if (d_extrap d =? 0)%Z then
      match k with
      | PyList => (Ok m, snd (inner FloatArr m))      (* np.asarray makes an array *)
      | _ => inner k m                                (* the same array *)
      end
    else (Ok m, v <- d_perform_extrap d (map (map fst) m) ;;
                snd (inner FloatArr (map (map RtoC) v)))
  else inner k m.

(** `transform_cosmo_multipoles`, 476-504. *)
Definition d_multipoles (d : dsbt) (dir : direction) (k : kind) (m : cmatrix)
    : res cmatrix * res ((list R * list R) * cmatrix) :=
  match py_prefactor (zsum (d_degrees d)) (length (d_degrees d)) dir with
  | Err e => (Ok m, Err e)
  | Ok f =>
    let (after, r) := d_transform d k m in
    (after, r <- r ;; Ok (fst r, map (map (fun z => z * f)%C) (snd r)))
  end.
