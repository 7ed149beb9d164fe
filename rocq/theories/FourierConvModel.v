(* Window convolution of power spectra and bispectra: the classes
   PowspecWinConv and BispecWinConv of /repo/src/triumvirate/winconv.py
   1885-2131 and 2378-2675, over the transforms of TransformModel.v and the
   configuration-space convolutions of WinConvModel.v.

   Left out: MPI communicators, the wording of warnings, and `threaded`.  The
   arrays of the caller's dictionary are taken to be distinct objects. *)
From Coq Require Import String.
From Coq Require Import Reals ZArith List Lia Lra Bool.
From Coquelicot Require Import Complex.
From Verif Require Import Base ArrayModel Array2dModel MultipoleModel WindowModel WinConvModel
  OscilModel Dft FftlogModel TransformModel.
Import ListNotations.
Local Open Scope R_scope.

(** The keyword arguments of the transforms once the defaults are in place
    (1968-1981 and 2479-2491; how they get there is [transform_kwargs] of
    WinConvModel.v): transforms.py 103-105 and 340-343. *)
Record tpar := mk_tpar {
  p_pivot : R;
  p_low : bool;
  p_extrap : Z;
  p_exp : R;
  p_layer : layer;      (* 'extrap_layer', one dimension only *)
  p_2d : bool }.        (* 'extrap2d', two dimensions only *)

(** `multipole[0]`, `multipole[1]`. *)
Definition index0 (m : list Z) : res Z :=
  match m with a :: _ => Ok a | [] => Err IndexError end.
Definition index1 (m : list Z) : res Z :=
  match m with _ :: b :: _ => Ok b | _ => Err IndexError end.

(** `spline`: the order before the transform and the one after. *)
Definition orders : Type := nat * nat.

(** `for k in self.k_in.values(): _check_1d_array(k, check_loglin=True)`,
    2005-2012: SpacingError is raised again. *)
Fixpoint check_points (d : zdict (list R)) : res unit :=
  match d with
  | [] => Ok tt
  | (_, k) :: r => _ <- check_1d_array false false false true k ;; check_points r
  end.

(** `r_common`, 2028-2055 and 2543-2570. *)
Definition common_points (r : option (list R)) : res (option sampts) :=
  match r with
  | None => Ok None
  | Some r => _ <- check_1d_array false false false true r ;; Ok (Some (One r))
  end.

Definition posts {T} (post : T -> list R) (d : mdict T) : list (mlike * list R) :=
  map (fun kt => (MCopy (fst kt), post (snd kt))) d.

(** What the two classes share: [T] is the transform, made by [new] for a
    multipole on given points, and [post] its `_post_sampts`. *)
Record fconv (T A : Type) := mk_fconv {
  w_kin : zdict (list R);            (* k_in *)
  w_orig : option (zdict (list R));  (* _k_in_orig *)
  w_back : mdict T;                  (* _bsjt, _bdsjt *)
  w_conv : conv A;                   (* _winconv *)
  w_forth : mdict T;                 (* _fsjt, _fdsjt *)
  w_kout : list R;                   (* k_out *)
  w_orders : orders;
  w_warned : list uncovered }.       (* warnings of coverage, in order *)
Arguments mk_fconv {T A}.
Arguments w_kin {T A}.
Arguments w_orig {T A}.
Arguments w_back {T A}.
Arguments w_conv {T A}.
Arguments w_forth {T A}.
Arguments w_kout {T A}.
Arguments w_orders {T A}.
Arguments w_warned {T A}.

Definition fourier_init {T A} (new : list Z -> list R -> res T) (post : T -> list R)
    (f : formulae) (rQ : mdict (list R)) (Q : mdict A)
    (kin : zdict (list R)) (orig : option (zdict (list R)))
    (k_out r_common : option (list R)) (s : orders) : res (fconv T A) :=
  back <- on_keys (fun z => k <- zlookup kin (ZPole z) ;; new z k) (f_Z f) ;;
  rc <- common_points r_common ;;
  st <- initialise_sampts f rQ (Each (posts post back)) rc false ;;
  let '(ri, ro, w1) := st in
  forth <- on_keys (fun m => r <- lookup ro m ;; new m r) (f_poles f) ;;
  ko <- (match k_out with
         | Some k => Ok k
         | None => find_conv_range (map (fun kt => post (snd kt)) forth) LgLin
         end) ;;
  c <- new_conv f (Each (as_keys rQ)) (as_keys Q) (Each (zas_keys ri))
         (Some (Each (as_keys ro))) (fst s) ;;
  Ok (mk_fconv kin orig back (fst c) forth ko s (w1 ++ snd c)%list).

(* ------------------------------------------------------------------ *)
(* Power spectrum                                                      *)

(** The transform of a multipole, 2016-2024 and 2058-2066: bias zero. *)
Definition new_single (g : gsl) (p : tpar) (m : list Z) (x : list R) : res sbt :=
  l <- index0 m ;;
  sbt_init g l 0 x (p_pivot p) (p_low p) (p_extrap p) (p_exp p) (p_layer p).

(** `PowspecWinConv.__init__`, 1962-2077. *)
Definition powspec_init (g : gsl) (f : formulae) (ws : sampts) (wm : list (mlike * list R))
    (k_in : sampts) (k_out r_common : option (list R)) (p : tpar) (s : orders)
    : res (fconv sbt (list R)) :=
  b <- base_init f ws wm ;;
  ki <- input_points f k_in ;;
  _ <- check_points ki ;;
  fourier_init (new_single g p) s_post f (fst b) (snd b) ki None k_out r_common s.

(** Samples as the caller gave them: what the array is, and its entries. *)
Definition samples (A : Type) : Type := kind * A.

Section Power.
Variable spl1 : nat -> bool -> list R -> list R -> res (R -> R).

(** 2110-2113.  The transform returns complex numbers, of which
    InterpolatedUnivariateSpline (1869-1873) keeps the real parts: its
    routines take real arrays, and the conversion drops the imaginary parts
    with a ComplexWarning. *)
Definition to_xi (w : fconv sbt (list R)) (P : list (mlike * samples (list C)))
    : res (mdict (list C)) :=
  on_keys (fun z =>
    t <- lookup (w_back w) z ;;
    a <- raw_lookup P (ZPole z) ;;
    yb <- snd (multipoles t (DNum (-1)) (fst a) (snd a)) ;;
    Ok (snd yb)) (f_Z (c_f (w_conv w))).

Definition reals_of (d : mdict (list C)) : mdict (list R) :=
  map (fun kv => (fst kv, map fst (snd kv))) d.

Definition xi_conv (w : fconv sbt (list R)) (P : list (mlike * samples (list C)))
    : res (mdict (list R)) :=
  xi <- to_xi w P ;;
  convolve2 spl1 (w_conv w) (as_keys (reals_of xi)).

(** Splines of the real and the imaginary parts, read at `k_out`, 2121-2125. *)
Definition read_out (k : nat) (x : list R) (y : list C) (at_ : list R) : res (list C) :=
  fr <- spl1 k false x (map fst y) ;;
  fi <- spl1 k false x (map snd y) ;;
  Ok (map (fun r => (fr r, fi r)) at_).

(** `PowspecWinConv.convolve`, 2109-2131: the power spectrum multipoles. *)
Definition powspec_convolve (w : fconv sbt (list R)) (P : list (mlike * samples (list C)))
    : res (mdict (list C)) :=
  xi <- xi_conv w P ;;
  on_keys (fun m =>
    t <- lookup (w_forth w) m ;;
    x <- lookup xi m ;;
    kp <- snd (multipoles t (DNum 1) FloatArr (map RtoC x)) ;;
    read_out (snd (w_orders w)) (fst kp) (snd kp) (w_kout w)) (f_poles (c_f (w_conv w))).

(** The correlation functions returned with `ret_xi=True`: the arrays that
    were handed to the forward transforms, as these left them. *)
Definition powspec_xi (w : fconv sbt (list R)) (P : list (mlike * samples (list C)))
    : res (mdict (list C)) :=
  xi <- xi_conv w P ;;
  on_keys (fun m =>
    t <- lookup (w_forth w) m ;;
    x <- lookup xi m ;;
    fst (multipoles t (DNum 1) FloatArr (map RtoC x))) (f_poles (c_f (w_conv w))).

(** The caller's samples of a multipole after a call. *)
Definition powspec_after (w : fconv sbt (list R)) (P : list (mlike * samples (list C)))
    (z : list Z) : res (list C) :=
  t <- lookup (w_back w) z ;;
  a <- raw_lookup P (ZPole z) ;;
  fst (multipoles t (DNum (-1)) (fst a) (snd a)).

End Power.

(* ------------------------------------------------------------------ *)
(* Bispectrum                                                          *)

(** 2529-2537 and 2573-2581. *)
Definition new_double (g : gsl) (p : tpar) (m : list Z) (x : list R) : res dsbt :=
  l0 <- index0 m ;;
  l1 <- index1 m ;;
  dsbt_init g [l0; l1] [0; 0]%Z x (p_pivot p) (p_low p) (EInt (p_extrap p)) (p_exp p) (p_2d p).

(** `BispecWinConv.__init__`, 2462-2597. *)
Definition bispec_init (g : gsl) (f : formulae) (ws : sampts) (wm : list (mlike * matrix))
    (k_in : sampts) (k_out r_common : option (list R)) (p : tpar) (s : orders)
    : res (fconv dsbt matrix) :=
  b <- base_init f ws wm ;;
  ki <- input_points f k_in ;;
  bad <- first_unspaced ki ;;
  ki' <- respaced ki ;;
  fourier_init (new_double g p) d_post f (fst b) (snd b) ki'
    (match bad with None => None | Some _ => Some ki end) k_out r_common s.

Section Bispectrum.
Variable spl2 : nat -> list R -> matrix -> res (R -> R -> R).
Variable simpson : list R -> list R -> R.
Variable wigner : Z -> Z -> Z -> R.

(** 2632-2642: the samples at the new points, for every key of the caller's
    dictionary.  Keys that are not `Multipole`s are not found. *)
Definition as_zkey (k : mlike) : res zkey :=
  match k with
  | MCopy i => Ok (ZPole i)
  | MStr s => if String.eqb s "ic" then Ok ZIc else Err KeyError
  | _ => Err KeyError
  end.

Definition reinterpolate (w : fconv dsbt matrix) (B : list (mlike * samples (list (list C))))
    : res (list (mlike * samples (list (list C)))) :=
  match w_orig w with
  | None => Ok B
  | Some o =>
      sequence (map (fun kb =>
        z <- as_zkey (fst kb) ;;
        x <- zlookup o z ;;
        f <- spl2 (snd (w_orders w)) x (real_part (snd (snd kb))) ;;
        y <- zlookup (w_kin w) z ;;
        Ok (fst kb, (FloatArr, map (map RtoC) (grid f y)))) B)
  end.

(** 2644-2648. *)
Definition to_zeta (w : fconv dsbt matrix) (B : list (mlike * samples (list (list C))))
    : res (mdict (list (list C))) :=
  on_keys (fun z =>
    t <- lookup (w_back w) z ;;
    a <- raw_lookup B (ZPole z) ;;
    yb <- snd (d_multipoles t (DNum (-1)) (fst a) (snd a)) ;;
    Ok (snd yb)) (f_Z (c_f (w_conv w))).

Definition zeta_conv (w : fconv dsbt matrix) (B : list (mlike * samples (list (list C))))
    (ic : option R) : res (mdict matrix) :=
  B <- reinterpolate w B ;;
  zeta <- to_zeta w B ;;
  convolve3 spl2 simpson wigner (w_conv w) (as_keys zeta) ic.

Definition read_out2 (k : nat) (x : list R) (y : list (list C)) (at_ : list R)
    : res (list (list C)) :=
  fr <- spl2 k x (map (map fst) y) ;;
  fi <- spl2 k x (map (map snd) y) ;;
  Ok (map (fun r => map (fun r' => (fr r r', fi r r')) at_) at_).

(** `BispecWinConv.convolve`, 2631-2673: the bispectrum multipoles; the points
    of the transform are its `_post_sampts` for both indices (2658). *)
Definition bispec_convolve (w : fconv dsbt matrix) (B : list (mlike * samples (list (list C))))
    (ic : option R) : res (mdict (list (list C))) :=
  zeta <- zeta_conv w B ic ;;
  on_keys (fun m =>
    t <- lookup (w_forth w) m ;;
    x <- lookup zeta m ;;
    kp <- snd (d_multipoles t (DNum 1) FloatArr (map (map RtoC) x)) ;;
    read_out2 (snd (w_orders w)) (d_post t) (snd kp) (w_kout w)) (f_poles (c_f (w_conv w))).

(** The correlation functions returned with `ret_zeta=True`. *)
Definition bispec_zeta (w : fconv dsbt matrix) (B : list (mlike * samples (list (list C))))
    (ic : option R) : res (mdict (list (list C))) :=
  zeta <- zeta_conv w B ic ;;
  on_keys (fun m =>
    t <- lookup (w_forth w) m ;;
    x <- lookup zeta m ;;
    fst (d_multipoles t (DNum 1) FloatArr (map (map RtoC) x))) (f_poles (c_f (w_conv w))).

(** The caller's samples of a multipole after a call; those at new points are
    not the caller's. *)
Definition bispec_after (w : fconv dsbt matrix) (B : list (mlike * samples (list (list C))))
    (z : list Z) : res (list (list C)) :=
  t <- lookup (w_back w) z ;;
  a <- raw_lookup B (ZPole z) ;;
  match w_orig w with
  | None => fst (d_multipoles t (DNum (-1)) (fst a) (snd a))
  | Some _ => Ok (snd a)
  end.

End Bispectrum.
