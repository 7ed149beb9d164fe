(* Window convolution of two- and three-point correlation functions: the
   formulae, the sample points, the sums and the integral constraint.
   /repo/src/triumvirate/winconv.py 107-158, 490-770, 1268-1771, 1831-1882,
   1950-2035, 2186-2375 and 2463-2525. *)
From Coq Require Import String.
From Coq Require Import Reals ZArith List Lia Lra Bool.
From Coquelicot Require Import Complex.
From Verif Require Import Base ArrayModel Array2dModel MultipoleModel WindowModel.
Import ListNotations.
Local Open Scope R_scope.

(* ------------------------------------------------------------------ *)
(* Formulae                                                            *)

(** `term.multipole_Z`: a multipole or the string 'ic' (WinConvTerm, 534). *)
Inductive zkey := ZPole (idx : list Z) | ZIc.

(** `==` of such keys: `Multipole.__eq__` (263-266) is false of a string. *)
Definition zeq (a b : zkey) : bool :=
  match a, b with
  | ZPole i, ZPole j => meq i j
  | ZIc, ZIc => true
  | _, _ => false
  end.

(** A dictionary keyed by multipoles and 'ic'. *)
Definition zdict (A : Type) : Type := list (zkey * A).

Fixpoint zlookup {A} (d : zdict A) (k : zkey) : res A :=
  match d with
  | [] => Err KeyError
  | (k', a) :: r => if zeq k' k then Ok a else zlookup r k
  end.

(** A dictionary as the caller wrote it, subscripted with a `Multipole` or
    with 'ic': `Multipole.__eq__` asks for a `Multipole`, so no string, tuple
    or integer key is ever found by one. *)
Definition samekey (k : mlike) (z : zkey) : bool :=
  match k, z with
  | MCopy i, ZPole j => meq i j
  | MStr s, ZIc => String.eqb s "ic"
  | _, _ => false
  end.

Fixpoint raw_lookup {A} (d : list (mlike * A)) (z : zkey) : res A :=
  match d with
  | [] => Err KeyError
  | (k, a) :: r => if samekey k z then Ok a else raw_lookup r z
  end.

Record cterm := mk_cterm { t_Q : list Z; t_Z : zkey; t_c : R }.

(** The arguments of a `WinConvTerm`; a coefficient is its real value (the
    reading of strings by sympy is not modelled). *)
Definition raw_term : Type := mlike * mlike * R.

Definition is_ic (m : mlike) : bool :=
  match m with MStr s => String.eqb s "ic" | _ => false end.

(** `WinConvTerm.__init__`, 536-547. *)
Definition mk_term (t : raw_term) : res cterm :=
  let '(q, z, c) := t in
  q <- multipole q ;;
  z <- (if is_ic z then Ok ZIc else (i <- multipole z ;; Ok (ZPole i))) ;;
  Ok (mk_cterm q z c).

(** `{Multipole(key): val for key, val in d.items()}`. *)
Definition coerce {A} (l : list (mlike * A)) : res (mdict A) :=
  ks <- sequence (map (fun ka => k <- multipole (fst ka) ;; Ok (k, snd ka)) l) ;;
  Ok (fold_left (fun d kb => store d (fst kb) (snd kb)) ks []).

(** `set(...)` of multipoles (its order is not Python's, which is arbitrary;
    it is only ever sorted or asked for membership). *)
Definition distinct (l : list (list Z)) : list (list Z) :=
  nodup (list_eq_dec Z.eq_dec) l.

Record formulae := mk_formulae {
  f_dict : mdict (list cterm);     (* _formulae *)
  f_poles : list (list Z);         (* multipoles *)
  f_Q : list (list Z);             (* multipoles_Q *)
  f_Z : list (list Z);             (* _multipoles_Z_true *)
  f_ic : bool }.                   (* whether _multipoles_Z_peusdo holds 'ic' *)

(** `multipoles_Z`, 756. *)
Definition f_zkeys (f : formulae) : list zkey :=
  map ZPole (f_Z f) ++ (if f_ic f then [ZIc] else []).

Definition true_Z (ts : list cterm) : list (list Z) :=
  flat_map (fun t => match t_Z t with ZPole i => [i] | ZIc => [] end) ts.

Definition has_ic (ts : list cterm) : bool :=
  existsb (fun t => match t_Z t with ZIc => true | _ => false end) ts.

(** `WinConvFormulae.__init__`, 718-756. *)
Definition build_formulae (raw : list (mlike * list raw_term)) : res formulae :=
  l <- sequence (map (fun mf =>
         m <- multipole (fst mf) ;;
         ts <- sequence (map mk_term (snd mf)) ;;
         Ok (m, ts)) raw) ;;
  let d := fold_left (fun d kb => store d (fst kb) (snd kb)) l [] in
  let ts := flat_map snd d in
  poles <- msorted (map fst d) ;;
  qs <- msorted (distinct (map t_Q ts)) ;;
  zs <- msorted (distinct (true_Z ts)) ;;
  Ok (mk_formulae d poles qs zs (has_ic ts)).

(** NAMED_FORMULAE['sugiyama+19'], 135-158, as the dictionary literal. *)
Definition rt (q z : string) (c : R) : raw_term := (MStr q, MStr z, c).
Definition sugiyama19 : list (mlike * list raw_term) :=
  [ (MStr "000", [rt "000" "000" 1; rt "000" "ic" (-1); rt "110" "110" (1 / 3)]);
    (MStr "110", [rt "000" "110" 1; rt "110" "000" 1; rt "110" "ic" (-1)]);
    (MStr "202", [rt "000" "202" 1; rt "202" "000" 1; rt "202" "ic" (-1);
                  rt "110" "112" (1 / 3); rt "112" "110" (1 / 3)]);
    (MStr "112", [rt "000" "112" 1; rt "112" "000" 1; rt "112" "ic" (-1);
                  rt "022" "110" (2 / 5); rt "202" "110" (2 / 5);
                  rt "110" "022" (2 / 5); rt "110" "202" (2 / 5)]) ].

(* ------------------------------------------------------------------ *)
(* Sample points                                                       *)

(** Sample points as an argument: one array, or an array for each key. *)
Inductive sampts :=
| One (r : list R)
| Each (l : list (mlike * list R)).

(** `a.min()`, `a.max()`: ValueError on an empty array. *)
Definition amin (a : list R) : res R :=
  match a with [] => Err ValueError | x :: r => Ok (fold_left Rmin r x) end.
Definition amax (a : list R) : res R :=
  match a with [] => Err ValueError | x :: r => Ok (fold_left Rmax r x) end.

Definition RTOL : R := 1 / 100000.

(** `_check_coverage`, 1294-1305. *)
Definition covered (rc rs : list R) : res bool :=
  a <- amin rs ;; b <- amin rc ;;
  if Rleb ((1 - RTOL) * a) b
  then c <- amax rc ;; d <- amax rs ;; Ok (Rleb c ((1 + RTOL) * d))
  else Ok false.

(** `_find_conv_range`, 1338-1353. *)
Definition find_conv_range (coords : list (list R)) (s : spacing) : res (list R) :=
  los <- sequence (map amin coords) ;;
  lo <- amax los ;;
  his <- sequence (map amax coords) ;;
  hi <- amin his ;;
  let n := Z.of_nat (fold_left Nat.min (map (@length R) coords)
                       (length (nth 0 coords []))) in
  match s with
  | LgLin => logspace lo hi n
  | Lin => linspace lo hi n
  | OtherSpacing => Err ValueError
  end.

Definition has_key {A} (d : mdict A) (k : list Z) : bool :=
  existsb (fun ka => meq (fst ka) k) d.
Definition subset_keys {A} (ks : list (list Z)) (d : mdict A) : bool :=
  forallb (has_key d) ks.

(** `WinConvBase.__init__`, 1565-1624, once the formulae are built: the
    points and the samples of the window. *)
Definition base_init {A} (f : formulae) (ws : sampts) (wm : list (mlike * A))
    : res (mdict (list R) * mdict A) :=
  match f_Z f with
  | [] => Err ValueError
  | _ =>
    rQ <- (match ws with
           | Each l => coerce l
           | One r => coerce (map (fun kv => (fst kv, r)) wm)
           end) ;;
    Q <- coerce wm ;;
    if negb (subset_keys (f_Q f) rQ) then Err ValueError
    else if negb (subset_keys (f_Q f) Q) then Err ValueError
    else Ok (rQ, Q)
  end.

(** The dictionary `r_in` (or `k_in`), 1664-1681, 1991-2008 and 2485-2502: the
    keys given must be among those of the formulae. *)
Definition input_points (f : formulae) (a : sampts) : res (zdict (list R)) :=
  match a with
  | Each l =>
      d <- coerce l ;;
      if forallb (fun kv => existsb (zeq (ZPole (fst kv))) (f_zkeys f)) d
      then Ok (map (fun kv => (ZPole (fst kv), snd kv)) d)
      else Err ValueError
  | One r => Ok (map (fun z => (z, r)) (f_zkeys f))
  end.

(** The output points, 1683-1722. *)
Definition key_to_value {A} (x : res A) : res A :=
  match x with Err KeyError => Err ValueError | _ => x end.

Definition output_points (f : formulae) (rQ : mdict (list R)) (r_in : zdict (list R))
    (r_out : option sampts) (enforce : bool) : res (mdict (list R)) :=
  match r_out with
  | None =>
      if enforce then
        on_keys (fun m =>
          ts <- lookup (f_dict f) m ;;
          cs <- sequence (map (fun t =>
                  q <- lookup rQ (t_Q t) ;;
                  match t_Z t with
                  | ZIc => Ok [q]
                  | z => r <- zlookup r_in z ;; Ok [q; r]
                  end) ts) ;;
          find_conv_range (concat cs) LgLin) (f_poles f)
      else key_to_value (on_keys (fun m => zlookup r_in (ZPole m)) (f_poles f))
  | Some (Each l) => coerce l
  | Some (One r) => Ok (map (fun m => (m, r)) (f_poles f))
  end.

(** The warnings of 1724-1771, in order, as the pair of the multipole and the
    key whose points do not cover it. *)
Inductive uncovered := ByWindow (m q : list Z) | ByInput (m z : list Z).

Definition term_coverage (rQ : mdict (list R)) (r_in : zdict (list R))
    (r_out : mdict (list R)) (m : list Z) (t : cterm) : res (list uncovered) :=
  ro <- lookup r_out m ;;
  q <- lookup rQ (t_Q t) ;;
  b <- covered ro q ;;
  let w := if b then [] else [ByWindow m (t_Q t)] in
  match t_Z t with
  | ZIc => Ok w
  | ZPole i =>
      r <- zlookup r_in (ZPole i) ;;
      b' <- covered ro r ;;
      Ok (w ++ if b' then [] else [ByInput m i])
  end.

Definition coverage (f : formulae) (rQ : mdict (list R)) (r_in : zdict (list R))
    (r_out : mdict (list R)) : res (list uncovered) :=
  l <- sequence (map (fun m =>
         ts <- lookup (f_dict f) m ;;
         us <- sequence (map (term_coverage rQ r_in r_out m) ts) ;;
         Ok (concat us)) (f_poles f)) ;;
  Ok (concat l).

(** `WinConvBase.initialise_sampts`, 1626-1771. *)
Definition initialise_sampts (f : formulae) (rQ : mdict (list R)) (r_in : sampts)
    (r_out : option sampts) (enforce : bool)
    : res (zdict (list R) * mdict (list R) * list uncovered) :=
  ri <- input_points f r_in ;;
  ro <- output_points f rQ ri r_out enforce ;;
  w <- coverage f rQ ri ro ;;
  Ok (ri, ro, w).

Record conv (A : Type) := mk_conv {
  c_f : formulae;
  c_rQ : mdict (list R);
  c_Q : mdict A;
  c_rin : zdict (list R);
  c_rout : mdict (list R);
  c_spline : nat }.
Arguments mk_conv {A}.
Arguments c_f {A}.
Arguments c_rQ {A}.
Arguments c_Q {A}.
Arguments c_rin {A}.
Arguments c_rout {A}.
Arguments c_spline {A}.

(** `TwoPCFWinConv.__init__`, 1831-1837, and `ThreePCFWinConv.__init__`,
    2186-2204, for the formulae object; the second component lists the
    warnings of coverage. *)
Definition new_conv {A} (f : formulae) (ws : sampts) (wm : list (mlike * A))
    (r_in : sampts) (r_out : option sampts) (spline : nat)
    : res (conv A * list uncovered) :=
  b <- base_init f ws wm ;;
  s <- initialise_sampts f (fst b) r_in r_out false ;;
  Ok (mk_conv f (fst b) (snd b) (fst (fst s)) (snd (fst s)) spline, snd s).

(* ------------------------------------------------------------------ *)
(* Convolution                                                         *)

(** `np.sum(summands, axis=0)` for vectors and for matrices of one shape.  (A
    formula without terms makes numpy return the number 0; here the array is
    empty.) *)
Definition vsum (ss : list (list R)) : list R :=
  map (fun i => rsum (map (fun s => nth i s 0) ss)) (seq 0 (length (nth 0 ss []))).
Definition msum (ss : list matrix) : matrix :=
  map (fun i => vsum (map (fun s => nth i s []) ss)) (seq 0 (length (nth 0 ss []))).

Section Conv.
(** `InterpolatedUnivariateSpline(x, y, k, ext)` and
    `RectBivariateSpline(x, x, z, kx=k, ky=k)`: construction may fail, nothing
    else is assumed.  `simpson x y` is scipy's `simpson(y, x=x)`; `wigner` is
    sympy's Wigner 3-j symbol with zero orders. *)
Variable spl1 : nat -> bool -> list R -> list R -> res (R -> R).
Variable spl2 : nat -> list R -> matrix -> res (R -> R -> R).
Variable simpson : list R -> list R -> R.
Variable wigner : Z -> Z -> Z -> R.

(** One summand of `TwoPCFWinConv.convolve`, 1862-1876; `true` marks the
    spline with ext=_EXT. *)
Definition summand2 (c : conv (list R)) (xi : list (mlike * list R)) (m : list Z)
    (t : cterm) : res (list R) :=
  rq <- lookup (c_rQ c) (t_Q t) ;;
  q <- lookup (c_Q c) (t_Q t) ;;
  fq <- spl1 (c_spline c) true rq q ;;
  ro <- lookup (c_rout c) m ;;
  rz <- zlookup (c_rin c) (t_Z t) ;;
  x <- raw_lookup xi (t_Z t) ;;
  fz <- spl1 (c_spline c) false rz x ;;
  Ok (map (fun r => t_c t * fq r * fz r) ro).

(** `TwoPCFWinConv.convolve`, 1858-1882. *)
Definition convolve2 (c : conv (list R)) (xi : list (mlike * list R))
    : res (mdict (list R)) :=
  on_keys (fun m =>
    ts <- lookup (f_dict (c_f c)) m ;;
    ss <- sequence (map (summand2 c xi m) ts) ;;
    Ok (vsum ss)) (f_poles (c_f c)).

(** `.real` of complex samples. *)
Definition cmatrix : Type := list (list C).
Definition real_part (m : cmatrix) : matrix := map (map fst) m.

(** `_integrate_2d_samples`, 1375. *)
Definition integrate2 (x y : list R) (z : matrix) : R :=
  simpson x (map (fun xr => simpson y (map (fun yz => snd yz * fst yz * fst yz)
                                           (combine y (snd xr))) * fst xr * fst xr)
                 (combine x z)).

Definition grid (f : R -> R -> R) (r : list R) : matrix :=
  map (fun x => map (fun y => f x y) r) r.

Definition mmul (a b : matrix) : matrix :=
  map (fun rs => map (fun xy => fst xy * snd xy) (combine (fst rs) (snd rs)))
      (combine a b).

(** `r_common`: absent, an array, or a dictionary, whose keys are used as
    they are. *)
Inductive common := CNone | COne (r : list R) | CEach (l : list (mlike * list R)).

(** `_check_conv_range` for two dictionaries, 1308-1314: the keys in common. *)
Fixpoint covered_all (rc : list (mlike * list R)) (rs : mdict (list R)) : res bool :=
  match rc with
  | [] => Ok true
  | (MCopy k, a) :: r =>
      match lookup rs k with
      | Ok s => b <- covered a s ;; if b then covered_all r rs else Ok false
      | Err _ => covered_all r rs
      end
  | _ :: r => covered_all r rs
  end.

(** `_N_prefactor` (417-420) times `_H_factor` of the three indices, squared
    (1503-1505): the call with other than three indices is a TypeError. *)
Definition ic_factor (m : list Z) : res R :=
  match m with
  | [a; b; c] =>
      Ok (IZR ((2 * a + 1) * (2 * b + 1) * (2 * c + 1)) * (wigner a b c) ^ 2)
  | _ => Err TypeError
  end.

Definition monopole : list Z := [0; 0; 0]%Z.

(** `calc_threept_ic`, 1424-1516, with the two warnings of coverage (1474-1485)
    beside the value. *)
Definition calc_threept_ic (ws : sampts) (wm : list (mlike * matrix)) (r : sampts)
    (zeta : list (mlike * cmatrix)) (r_common : common) (approx : bool) (spline : nat)
    : res (R * (bool * bool)) :=
  wm <- coerce wm ;;
  zeta <- coerce zeta ;;
  ws <- (match ws with
         | Each l => coerce l
         | One a => Ok (map (fun kv => (fst kv, a)) wm)
         end) ;;
  r <- (match r with
        | Each l => coerce l
        | One a => Ok (map (fun kv => (fst kv, a)) zeta)
        end) ;;
  let ms := if approx then [monopole]
            else filter (has_key zeta) (map fst wm) in
  if negb approx && negb (existsb (meq monopole) ms) then Err ValueError
  else if negb (subset_keys ms ws) then Err ValueError
  else if negb (subset_keys ms r) then Err ValueError
  else
  let rc := match r_common with
            | CNone => map (fun kv => (MCopy (fst kv), snd kv)) r
            | COne a => map (fun m => (MCopy m, a)) ms
            | CEach l => l
            end in
  w1 <- covered_all rc r ;;
  w2 <- covered_all rc ws ;;
  Q <- on_keys (fun m =>
         rw <- lookup ws m ;; q <- lookup wm m ;; f <- spl2 spline rw q ;;
         a <- raw_lookup rc (ZPole m) ;; Ok (grid f a)) ms ;;
  Z <- on_keys (fun m =>
         rz <- lookup r m ;; z <- lookup zeta m ;; f <- spl2 spline rz (real_part z) ;;
         a <- raw_lookup rc (ZPole m) ;; Ok (grid f a)) ms ;;
  ns <- sequence (map (fun m =>
          k <- ic_factor m ;;
          a <- raw_lookup rc (ZPole m) ;;
          q <- lookup Q m ;; z <- lookup Z m ;;
          Ok (k * integrate2 a a (mmul q z))) ms) ;;
  a <- raw_lookup rc (ZPole monopole) ;;
  q <- lookup Q monopole ;;
  let d := integrate2 a a q in
  if Reqb d 0 then Err NotANumber else Ok (rsum ns / d, (negb w1, negb w2)).

Definition as_keys {A} (d : mdict A) : list (mlike * A) :=
  map (fun kv => (MCopy (fst kv), snd kv)) d.
Definition zas_keys {A} (d : zdict A) : list (mlike * A) :=
  map (fun kv => (match fst kv with ZPole i => MCopy i | ZIc => MStr "ic" end, snd kv)) d.

(** The integral constraint used by `ThreePCFWinConv.convolve`, 2236-2251: the
    order of the splines is not passed on, so it is SPLINE = 3. *)
Definition the_ic (c : conv matrix) (zeta : list (mlike * cmatrix)) (ic : option R)
    : res (option R) :=
  match ic with
  | None =>
      if f_ic (c_f c) then
        v <- calc_threept_ic (Each (as_keys (c_rQ c))) (as_keys (c_Q c))
               (Each (zas_keys (c_rin c))) zeta CNone false 3 ;;
        Ok (Some (fst v))
      else Ok None
  | Some _ => Ok ic
  end.

(** One summand of `ThreePCFWinConv.convolve`, 2257-2288. *)
Definition index_to_value {A} (x : res A) : res A :=
  match x with Err IndexError => Err ValueError | _ => x end.

Definition summand3 (c : conv matrix) (zeta : list (mlike * cmatrix)) (ic : option R)
    (m : list Z) (t : cterm) : res matrix :=
  rq <- lookup (c_rQ c) (t_Q t) ;;
  q <- lookup (c_Q c) (t_Q t) ;;
  fq <- spl2 (c_spline c) rq q ;;
  ro <- lookup (c_rout c) m ;;
  fz <- (match t_Z t with
         | ZIc => match ic with Some v => Ok (fun _ _ => v) | None => Err TypeError end
         | z => rz <- zlookup (c_rin c) z ;;
                x <- raw_lookup zeta z ;;
                index_to_value (spl2 (c_spline c) rz (real_part x))
         end) ;;
  Ok (grid (fun x y => t_c t * fq x y * fz x y) ro).

(** `ThreePCFWinConv.convolve`, 2235-2292. *)
Definition convolve3 (c : conv matrix) (zeta : list (mlike * cmatrix)) (ic : option R)
    : res (mdict matrix) :=
  ic <- the_ic c zeta ic ;;
  on_keys (fun m =>
    ts <- lookup (f_dict (c_f c)) m ;;
    ss <- sequence (map (summand3 c zeta ic m) ts) ;;
    Ok (msum ss)) (f_poles (c_f c)).

(** One summand of `ThreePCFWinConv.convolve_diag`, 2336-2366. *)
Definition summand_diag (c : conv matrix) (zeta : list (mlike * list R)) (ic : option R)
    (m : list Z) (t : cterm) : res (list R) :=
  rq <- lookup (c_rQ c) (t_Q t) ;;
  q <- lookup (c_Q c) (t_Q t) ;;
  fq <- spl1 (c_spline c) true rq (diag q) ;;
  ro <- lookup (c_rout c) m ;;
  fz <- (match t_Z t with
         | ZIc => match ic with Some v => Ok (fun _ => v) | None => Err TypeError end
         | z => rz <- zlookup (c_rin c) z ;;
                x <- raw_lookup zeta z ;;
                index_to_value (spl1 (c_spline c) false rz x)
         end) ;;
  Ok (map (fun r => t_c t * fq r * fz r) ro).

(** `ThreePCFWinConv.convolve_diag`, 2324-2370. *)
Definition convolve_diag (c : conv matrix) (zeta : list (mlike * list R))
    (ic : option R) : res (mdict (list R)) :=
  if f_ic (c_f c) && match ic with None => true | _ => false end
  then Err ValueError
  else on_keys (fun m =>
    ts <- lookup (f_dict (c_f c)) m ;;
    ss <- sequence (map (summand_diag c zeta ic m) ts) ;;
    Ok (vsum ss)) (f_poles (c_f c)).

End Conv.

(* ------------------------------------------------------------------ *)
(* Parameters of the Fourier-space convolutions                        *)

(** Keyword arguments, in order. *)
Definition kwargs (V : Type) : Type := list (string * V).
Definition has_kw {V} (k : kwargs V) (n : string) : bool :=
  existsb (fun kv => String.eqb (fst kv) n) k.

(** `self._transform_kwargs = transform_kwargs or {}` and the defaults set in
    it, 1957-1970 (extrap = 4) and 2464-2477 (extrap = 5).  The second
    component is the caller's own dictionary afterwards: it is the same object
    unless it was empty. *)
Definition transform_kwargs {V} (extrap threaded : V) (given : option (kwargs V))
    : kwargs V * option (kwargs V) :=
  let start := match given with None => [] | Some k => k end in
  let k1 := if has_kw start "extrap" then start
            else (start ++ [("extrap"%string, extrap)])%list in
  let k2 := if has_kw k1 "threaded" then k1
            else (k1 ++ [("threaded"%string, threaded)])%list in
  (k2, match given with
       | None => None
       | Some [] => Some []
       | Some _ => Some k2
       end).

(** `BispecWinConv.__init__`, 2504-2525: points of the input multipoles that
    are not logarithmically spaced.  `len(k)` is the length of the array that
    failed the check, whatever the multipole. *)
Fixpoint first_unspaced (d : zdict (list R)) : res (option (list R)) :=
  match d with
  | [] => Ok None
  | (_, k) :: r =>
      match check_1d_array false false false true k with
      | Ok _ => first_unspaced r
      | Err SpacingError => Ok (Some k)
      | Err e => Err e
      end
  end.

Definition respaced (d : zdict (list R)) : res (zdict (list R)) :=
  bad <- first_unspaced d ;;
  match bad with
  | None => Ok d
  | Some k =>
      sequence (map (fun zk =>
        match snd zk with
        | [] => Err IndexError
        | _ => a <- logspace (at0 (snd zk)) (atm1 (snd zk)) (Z.of_nat (length k)) ;;
               Ok (fst zk, a)
        end) d)
  end.
