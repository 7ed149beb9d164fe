(* Convolved bispectra: a window of ones, odd degrees, pivots, and the
   caller's arrays (C115, C116). *)
From Coq Require Import String.
From Coq Require Import Reals ZArith List Lia Lra Bool.
From Coquelicot Require Import Complex.
From Verif Require Import Base ArrayModel ArrayProofs Array2dModel RSum MultipoleModel
  WindowModel WindowProps WinConvModel WinConvProps WinConvSumProps
  OscilModel Dft FftlogModel FftlogProofs FftlogProps TransformModel TransformProps FourierConvModel
  FourierConvProps.
Import ListNotations.
Local Open Scope R_scope.

(* ------------------------------------------------------------------ *)
(* A window of ones in configuration space                             *)

(** Besides terms in the integral constraint, the monopole of the window occurs
    once, with the multipole itself and coefficient 1. *)
Definition unit_formula3 (mono : list Z) (f : formulae) (m : list Z) : Prop :=
  forall ts, lookup (f_dict f) m = Ok ts ->
    filter (fun t => meq (t_Q t) mono && negb (zeq (t_Z t) ZIc)) ts = [mk_cterm mono (ZPole m) 1].

Lemma combine_filter {A B} (p : A -> bool) (P : A -> B -> Prop) ts gs : Forall2 P ts gs ->
  Forall2 P (filter p ts) (map snd (filter (fun tg => p (fst tg)) (combine ts gs)))
  /\ map fst (filter (fun tg => p (fst tg)) (combine ts gs)) = filter p ts.
Proof.
  induction 1 as [|t g ts gs HP _ [IH1 IH2]]; [split; [constructor|reflexivity]|].
  cbn [filter combine fst]. destruct (p t); [|auto]. cbn [map fst snd]. split; [now constructor|now f_equal].
Qed.

Lemma combine_in {A B} (P : A -> B -> Prop) ts gs t g : Forall2 P ts gs -> In (t, g) (combine ts gs) -> P t g /\ In t ts.
Proof.
  induction 1 as [|t' g' ts gs HP _ IH]; [contradiction|]. intros [E|I].
  - injection E as -> ->. split; [exact HP|now left].
  - destruct (IH I). split; [assumption|now right].
Qed.

Section Three.
Variable spl2 : nat -> list R -> matrix -> res (R -> R -> R).
Variable simpson : list R -> list R -> R.
Variable wigner : Z -> Z -> Z -> R.

Theorem convolve3_unit raw c zeta ic out mono m rm z : build_formulae raw = Ok (c_f c) ->
  const2 spl2 -> In m (f_poles (c_f c)) -> unit_formula3 mono (c_f c) m ->
  (f_ic (c_f c) = true -> ic = Some 0) ->
  unit_window mono (c_f c) const_matrix (c_rQ c) (c_Q c) ->
  convolve3 spl2 simpson wigner c (as_keys zeta) ic = Ok out ->
  zlookup (c_rin c) (ZPole m) = Ok rm -> lookup zeta m = Ok z ->
  exists ro fz, lookup (c_rout c) m = Ok ro /\ spl2 (c_spline c) rm (real_part z) = Ok fz
    /\ lookup out m = Ok (grid fz ro).
Proof.
  intros B C Hm UF IC W Hout Erm Ez.
  destruct (formulae_requirements raw _ B) as (Np & _ & _ & _ & Rp & RQ & _ & Ric).
  destruct (convolve3_sum spl2 simpson wigner raw c (as_keys zeta) ic out B Hout) as (icv & Eic & _ & S).
  destruct (proj1 (Rp m) Hm) as [ts Ets]. specialize (UF ts Ets).
  assert (Nts : ts <> []) by (intros ->; discriminate).
  destruct (S m ts Ets Nts) as (ro & gs & Ero & G & Eout). clear S.
  assert (IV : forall t v, In t ts -> t_Z t = ZIc -> icv = Some v -> v = 0).
  { intros t v Ht Et ->. assert (f_ic (c_f c) = true) by (apply Ric; exists m, t; split; [exists ts; auto|exact Et]).
    rewrite (IC H) in Eic. cbn [the_ic] in Eic. now injection Eic as <-. }
  assert (QV : forall t g, In t ts -> product3 spl2 c (as_keys zeta) icv t g ->
     match t_Z t with
     | ZIc => forall x y, g x y = 0
     | ZPole i => exists rz z fz, zlookup (c_rin c) (ZPole i) = Ok rz /\ lookup zeta i = Ok z
         /\ spl2 (c_spline c) rz (real_part z) = Ok fz
         /\ forall x y, g x y = (if meq (t_Q t) mono then 1 else 0) * fz x y
     end).
  { intros t g Ht (rq & q & fq & A1 & A2 & A3 & A4).
    assert (FQ : forall x y, fq x y = if meq (t_Q t) mono then 1 else 0).
    { rewrite (W (t_Q t) rq A1) in A2 by (apply RQ; exists m, t; split; [exists ts; auto|reflexivity]).
      injection A2 as <-. exact (C _ _ _ _ A3). }
    pose proof (IV t) as IVt. destruct (t_Z t) as [i|].
    - destruct A4 as (rz & z0 & fz & B1 & B2 & B3 & B4). rewrite raw_as_keys in B2. exists rz, z0, fz.
      do 3 (split; [assumption|]). intros x y. now rewrite B4, FQ.
    - destruct A4 as (v & B1 & B2). intros x y. rewrite B2, (IVt v Ht eq_refl B1). ring. }
  set (p := fun t => meq (t_Q t) mono && negb (zeq (t_Z t) ZIc)) in *.
  destruct (combine_filter p _ _ _ G) as [K1 K2].
  assert (I : In (mk_cterm mono (ZPole m) 1) ts).
  { assert (I : In (mk_cterm mono (ZPole m) 1) (filter p ts)) by (rewrite UF; now left). now apply filter_In in I. }
  set (l := filter (fun tg => p (fst tg)) (combine ts gs)) in *. rewrite UF in K1, K2.
  destruct l as [|[t g] [|]] eqn:El; try discriminate. cbn [map fst] in K2. injection K2 as ->. cbn [map snd] in K1.
  inversion K1 as [|? ? ? ? K3 _]; subst. pose proof (QV _ g I K3) as (rz & z0 & fz & E1 & E2 & E3 & Eg).
  cbn [t_Q] in Eg. exists ro, fz. split; [exact Ero|]. split; [congruence|].
  rewrite Eout. f_equal. unfold grid. apply map_ext. intros x. apply map_ext. intros y.
  rewrite (rsum_filter (fun tg => p (fst tg))).
  - fold l. rewrite El. cbn [map fst snd t_c]. rewrite rsum_cons, rsum_nil, Eg, meq_refl. ring.
  - intros [t g'] It E. cbn [fst snd] in *. destruct (combine_in _ _ _ _ _ G It) as [Pt Ht].
    specialize (QV t g' Ht Pt). unfold p in E. destruct (t_Z t) as [i|]; [|rewrite QV; ring].
    cbn [zeq negb] in E. rewrite andb_true_r in E. destruct QV as (_ & _ & fz' & _ & _ & _ & Eg').
    rewrite Eg', E. ring.
Qed.

(* ------------------------------------------------------------------ *)
(* Double transforms of real samples                                   *)

Lemma transform_real g ell n x kr low ee l t k a y b : real_gamma g ->
  sbt_init g ell n x kr low 0 ee l = Ok t -> (3 <= length x)%nat -> (forall r, In r x -> 0 < r) ->
  an_array k -> length a = length x -> reals a ->
  snd (transform t k a) = Ok (y, b) -> reals b.
Proof.
  intros G H N3 P AK LA RA HB.
  destruct (sbt_init_plain _ _ _ _ _ _ _ _ _ H) as (DG & HX & _ & _ & PRE & _ & HH).
  rewrite in_place_plain in HB by (try assumption; now rewrite PRE). rewrite PRE, weigh_pos in HB by exact P.
  cbn [bind snd] in HB. change (map _ (seq 0 (length x))) with (weighed x a) in HB.
  assert (LW : length (weighed x a) = length x) by (unfold weighed; now rewrite map_length, seq_length).
  destruct (finish_plain _ _ _ _ _ _ _ _ _ (weighed x a) H N3 LW) as (B & HBB & LB & F).
  rewrite F in HB. injection HB as <- <-.
  assert (RW : reals (weighed x a)).
  { intros z Hz. apply in_map_iff in Hz as (j & <- & Hj). apply in_seq in Hj.
    assert (snd (nth j a (RtoC 0)) = 0) by (apply RA, nth_In; lia).
    unfold Cmult, RtoC in *. cbn [fst snd]. rewrite H0. ring. }
  destruct (fft_real _ _ _ _ _ _ _ _ _ _ _ HH G HBB (fun _ => RW)) as [RB _].
  intros z Hz. apply in_map_iff in Hz as (j & <- & Hj). apply in_seq in Hj.
  assert (snd (nth j B (RtoC 0)) = 0) by (apply RB, nth_In; lia).
  unfold Cmult, RtoC in *. cbn [fst snd]. rewrite H0. ring.
Qed.

Definition real_matrix (m : cmatrix) : Prop := forall row, In row m -> reals row.

Lemma total_snd n f : (forall i, (i < n)%nat -> snd (f i) = 0) -> snd (total n f) = 0.
Proof.
  induction n as [|n IH]; intros H; [reflexivity|]. rewrite total_S. unfold Cplus. cbn [snd].
  rewrite IH by (intros; apply H; lia). rewrite H by lia. ring.
Qed.

Lemma matrix_real n (K : nat -> nat -> C) : (forall a, length a = n -> reals a -> reals (acts n K a)) ->
  forall i j, (i < n)%nat -> (j < n)%nat -> snd (K i j) = 0.
Proof.
  intros H i j Hi Hj. set (e := map (fun j' => if (j' =? j)%nat then RtoC 1 else RtoC 0) (seq 0 n)).
  assert (LE : length e = n) by (unfold e; now rewrite map_length, seq_length).
  assert (RE : reals e).
  { intros z Hz. apply in_map_iff in Hz as (j' & <- & _). now destruct (j' =? j)%nat. }
  specialize (H e LE RE (nth i (acts n K e) (RtoC 0)) ltac:(apply nth_In; rewrite acts_length; exact Hi)).
  unfold e in H. rewrite acts_fun in H by exact Hi.
  replace (total n (fun j' => K i j' * (if (j' =? j)%nat then RtoC 1 else RtoC 0))%C) with (K i j) in H; [exact H|].
  clear - Hj. induction n as [|n IH]; [lia|]. rewrite total_S. destruct (Nat.eq_dec j n) as [->|NE].
  - rewrite Nat.eqb_refl, total_zero; [ring|]. intros i' Hi'. replace (i' =? n)%nat with false; [ring|].
    symmetry. apply Nat.eqb_neq. lia.
  - rewrite <- IH by lia. replace (n =? j)%nat with false by (symmetry; apply Nat.eqb_neq; lia). ring.
Qed.

Lemma entry_real n m i j : square n m -> real_matrix m -> (i < n)%nat -> (j < n)%nat -> snd (entry m i j) = 0.
Proof.
  intros S H Hi Hj. unfold entry. apply (H (nth i m [])); [apply nth_In; destruct S; lia|].
  apply nth_In. now rewrite (square_nth n m i S Hi).
Qed.

Lemma cmult_parts (u v : C) : (snd u = 0 -> snd v = 0 -> snd (u * v)%C = 0) /\ (snd u = 0 -> fst v = 0 -> fst (u * v)%C = 0).
Proof. unfold Cmult. cbn [fst snd]. split; intros -> ->; ring. Qed.

(** A transform with a prefactor, of real samples: the shape, and the parity. *)
Lemma double_parity g l0 l1 x kr low ee e2d d k m y b : real_gamma g ->
  dsbt_init g [l0; l1] [0; 0]%Z x kr low (EInt 0) ee e2d = Ok d ->
  (3 <= length x)%nat -> (forall r, In r x -> 0 < r) ->
  an_array k -> square (length x) m -> real_matrix m ->
  snd (d_multipoles d (DNum (-1)) k m) = Ok (y, b) ->
  y = (d_post d, d_post d) /\ square (length x) b /\ (Z.even (l0 + l1) = true -> real_matrix b) /\
  (Z.even (l0 + l1) = false -> forall row, In row b -> forall z, In z row -> fst z = 0).
Proof.
  intros G H N3 P AK SM RM HB.
  destruct (dsbt_two _ _ _ _ _ _ _ _ _ _ _ H) as (u0 & u1 & U0 & U1 & ED).
  destruct (double_transform _ _ _ _ _ _ _ _ _ _ _ H N3 P) as (t0 & t1 & K0 & K1 & H0 & H1 & T & D).
  rewrite H0 in U0. rewrite H1 in U1. injection U0 as <-. injection U1 as <-.
  destruct (D k m AK SM) as (bb & EB & SB & VB).
  unfold d_multipoles in HB. rewrite ED in HB. cbn [d_degrees length] in HB. rewrite <- ED in HB.
  assert (F2 : py_prefactor (zsum [l0; l1]) 2 (DNum (-1)) = Ok (RtoC (/ (2 * PI) ^ (3 * 2)) * Cpowz Ci (zsum [l0; l1]))%C) by reflexivity.
  rewrite F2, EB in HB. cbn [bind fst snd] in HB. injection HB as <- <-.
  split; [rewrite ED; reflexivity|]. set (n := length x) in *.
  split; [apply square_map; [exact SB|intros r; now rewrite map_length]|].
  assert (R0 : forall i j, (i < n)%nat -> (j < n)%nat -> snd (K0 i j) = 0).
  { apply matrix_real. intros a LA RA. destruct (T ComplexArr a (or_intror eq_refl) LA) as [X _].
    exact (transform_real _ _ _ _ _ _ _ _ _ _ _ _ _ G H0 N3 P (or_intror eq_refl) LA RA X). }
  assert (R1 : forall i j, (i < n)%nat -> (j < n)%nat -> snd (K1 i j) = 0).
  { apply matrix_real. intros a LA RA. destruct (T ComplexArr a (or_intror eq_refl) LA) as [_ X].
    exact (transform_real _ _ _ _ _ _ _ _ _ _ _ _ _ G H1 N3 P (or_intror eq_refl) LA RA X). }
  assert (RB : forall row z, In row bb -> In z row -> snd z = 0).
  { intros row z Hr Hz. apply (In_nth _ _ []) in Hr as (i & Hi & <-). apply (In_nth _ _ (RtoC 0)) in Hz as (j & Hj & <-).
    destruct SB as [LB SB]. rewrite LB in Hi. rewrite (SB (nth i bb [])) in Hj by (apply nth_In; lia).
    change (snd (entry bb i j) = 0). rewrite VB by assumption. apply total_snd. intros i' Hi'. apply total_snd. intros j' Hj'.
    apply cmult_parts; [|now apply (entry_real n)]. apply cmult_parts; auto. }
  destruct (Cpowz_Ci (zsum [l0; l1])) as [C1 C2]. replace (l0 + l1)%Z with (zsum [l0; l1]) by (cbn; lia).
  split; intros E.
  - intros row Hr z Hz. apply in_map_iff in Hr as (row' & <- & Hr). apply in_map_iff in Hz as (v & <- & Hv).
    apply cmult_parts; [exact (RB row' v Hr Hv)|]. apply cmult_parts; [reflexivity|auto].
  - intros row Hr z Hz. apply in_map_iff in Hr as (row' & <- & Hr). apply in_map_iff in Hz as (v & <- & Hv).
    apply cmult_parts; [exact (RB row' v Hr Hv)|]. apply cmult_parts; [reflexivity|auto].
Qed.

Lemma real_matrix_back m : real_matrix m -> map (map RtoC) (real_part m) = m.
Proof.
  intros H. unfold real_part. rewrite map_map. rewrite <- (map_id m) at 2. apply map_ext_in. intros r Hr.
  apply reals_back, H, Hr.
Qed.

Lemma grid_exact n x f z : exact2 spl2 -> length x = n -> square n z -> (exists k, spl2 k x (real_part z) = Ok f) ->
  grid f x = real_part z.
Proof.
  intros X2 LX [LZ SZ] [k E]. unfold grid, real_part. apply nth_ext with (map (f 0) x) []; [rewrite !map_length, LX; symmetry; exact LZ|].
  rewrite map_length. intros i Hi. rewrite (map_nth (fun a => map (f a) x)).
  change (@nil R) with (map fst (@nil C)) at 1. rewrite (map_nth (map fst) z []).
  assert (LR : length (nth i z []) = n) by (apply SZ, nth_In; lia).
  apply nth_ext with (f (nth i x 0) 0) 0; [rewrite !map_length, LX; symmetry; exact LR|]. rewrite map_length. intros j Hj.
  rewrite (map_nth (f (nth i x 0))). rewrite (X2 _ _ _ _ E i j) by assumption.
  unfold real_part. change (@nil R) with (map fst (@nil C)) at 1. now rewrite (map_nth (map fst) z []).
Qed.

(* ------------------------------------------------------------------ *)
(* C115: a window of ones                                              *)

(** What the statements of this part share: a convolution made for a window of
    ones without extrapolation or common separations, at logarithmically
    spaced wavenumbers, and its samples of one multipole. *)
Definition plain_case3 g raw f ws wm rQ Q k_in k_out p s w (B : list (mlike * samples (list (list C)))) ic mono m l0 l1 km k b : Prop :=
  build_formulae raw = Ok f /\ base_init f ws wm = Ok (rQ, Q) /\
  bispec_init g f ws wm k_in k_out None p s = Ok w /\ p_extrap p = 0%Z /\ real_gamma g /\ 0 < p_pivot p /\
  unit_window mono f const_matrix rQ Q /\ In m (f_poles f) /\ unit_formula3 mono f m /\ (f_ic f = true -> ic = Some 0) /\
  index0 m = Ok l0 /\ index1 m = Ok l1 /\
  (exists ki, input_points f k_in = Ok ki /\ first_unspaced ki = Ok None /\ zlookup ki (ZPole m) = Ok km) /\
  (3 <= length km)%nat /\ (forall r, In r km -> 0 < r) /\ mid_kept km (p_pivot p) (p_low p) /\
  raw_lookup B (ZPole m) = Ok (k, b) /\ an_array k /\ square (length km) b /\ real_matrix b.

Lemma plain_parts3 g raw f ws wm rQ Q k_in k_out p s w B ic mono m l0 l1 km k b out : const2 spl2 -> exact2 spl2 ->
  plain_case3 g raw f ws wm rQ Q k_in k_out p s w B ic mono m l0 l1 km k b ->
  bispec_convolve spl2 simpson wigner w B ic = Ok out ->
  w_orders w = s /\ (forall k', k_out = Some k' -> w_kout w = k') /\ In m (f_Z f) /\
  exists t t' y c zeta,
    dsbt_init g [l0; l1] [0; 0]%Z km (p_pivot p) (p_low p) (EInt 0) (p_exp p) (p_2d p) = Ok t /\
    dsbt_init g [l0; l1] [0; 0]%Z (d_post t) (p_pivot p) (p_low p) (EInt 0) (p_exp p) (p_2d p) = Ok t' /\
    snd (d_multipoles t (DNum (-1)) k b) = Ok (y, c) /\
    y = (d_post t, d_post t) /\ square (length km) c /\ (Z.even (l0 + l1) = true -> real_matrix c) /\
    (Z.even (l0 + l1) = false -> forall row, In row c -> forall z, In z row -> fst z = 0) /\
    zeta_conv spl2 simpson wigner w B ic = Ok zeta /\ lookup zeta m = Ok (real_part c) /\
    lookup (w_forth w) m = Ok t' /\ lookup (w_back w) m = Ok t /\
    exists kp v, snd (d_multipoles t' (DNum 1) FloatArr (map (map RtoC) (real_part c))) = Ok kp /\
      read_out2 spl2 (snd s) (d_post t') (snd kp) (w_kout w) = Ok v /\ lookup out m = Ok v.
Proof.
  intros C2 X2 (BF & BI & W & EX & G & HK & U & Hm & UF & IC & I0 & I1 & (ki & IP & LS & Lk) & N3 & PK & MK & LP & AK & SB & RB) HO.
  unfold bispec_init in W. rewrite BI in W. cbn [bind fst snd] in W. rewrite IP in W. cbn [bind] in W.
  unfold respaced in W. rewrite LS in W. cbn [bind] in W.
  destruct (fourier_init_inv _ _ _ _ _ _ _ _ _ _ _ _ _ _ BF BI W)
    as (Ef & ErQ & EQ & Es & Eo & Ek & Eor & KO & BK & FO).
  destruct (formulae_requirements raw f BF) as (Np & _ & NZ & _).
  split; [exact Eo|]. split; [exact KO|].
  destruct (FO m Hm) as (r & t' & Lr & Ht' & Lt' & FB). destruct (FB eq_refl) as (t & HmZ & Lt & ->).
  destruct (BK m HmZ) as (km' & t0 & Ekm & Ht & Lt0 & Lin). rewrite Lk in Ekm. injection Ekm as <-.
  rewrite Lt in Lt0. injection Lt0 as <-. split; [exact HmZ|].
  unfold new_double in Ht, Ht'. rewrite I0, I1 in Ht, Ht'. cbn [bind] in Ht, Ht'. rewrite EX in Ht, Ht'.
  unfold bispec_convolve in HO. apply bind_ok in HO as (zeta & Hz & HO).
  assert (HZ := Hz). unfold zeta_conv in HZ. unfold reinterpolate in HZ. rewrite Eor in HZ. cbn [bind] in HZ.
  apply bind_ok in HZ as (z0 & Hx & Hc). unfold to_zeta in Hx. rewrite Ef in Hx.
  destruct (on_keys_inv _ _ _ NZ Hx) as [_ V]. destruct (V m HmZ) as (c & Ec & Lc). rewrite Lt, LP in Ec. cbn [bind fst snd] in Ec.
  apply bind_ok in Ec as ((y & c') & Hb & Ec). cbn [snd] in Ec. injection Ec as ->.
  destruct (double_parity _ _ _ _ _ _ _ _ _ _ _ _ _ G Ht N3 PK AK SB RB Hb) as (Ey & SC & PE & PO).
  exists t, t', y, c, zeta. do 2 (split; [assumption|]). split; [exact Hb|]. do 4 (split; [assumption|]). split; [exact Hz|].
  assert (LPO : length (d_post t) = length km).
  { destruct (dsbt_two _ _ _ _ _ _ _ _ _ _ _ Ht) as (u0 & u1 & U0 & _ & ->). cbn [d_post].
    apply (post_positive _ _ _ _ _ _ _ _ _ U0 PK). }
  assert (EZ : lookup zeta m = Ok (real_part c)).
  { rewrite <- Ef in BF, Hm, UF, IC. rewrite <- Ef, <- ErQ, <- EQ in U.
    destruct (convolve3_unit raw (w_conv w) z0 ic zeta mono m (d_post t) c BF C2 Hm UF IC U Hc Lin Lc) as (ro & fz & Lro & Efz & EV).
    rewrite Lr in Lro. injection Lro as <-. rewrite EV. f_equal.
    apply (grid_exact (length km)); [exact X2|exact LPO|exact SC|eauto]. }
  split; [exact EZ|]. split; [exact Lt'|]. split; [exact Lt|].
  rewrite Ef in HO. destruct (on_keys_inv _ _ _ Np HO) as [_ V']. destruct (V' m Hm) as (v & Ev & Lv).
  rewrite Lt', EZ in Ev. cbn [bind] in Ev. rewrite Eo in Ev. apply bind_ok in Ev as (kp & Ekp & Ev). exists kp, v. auto.
Qed.

Definition scaled (s : R) (m : cmatrix) : cmatrix := map (map (fun z => RtoC s * z)%C) m.

Lemma scaled_square n s m : square n m -> square n (scaled s m) /\
  forall i j, (i < n)%nat -> (j < n)%nat -> entry (scaled s m) i j = (RtoC s * entry m i j)%C.
Proof.
  intros S. split; [apply square_map; [exact S|intros r; now rewrite map_length]|].
  intros i j Hi Hj. unfold scaled. rewrite (entry_map n) by assumption. pose proof (square_nth n m i S Hi) as L.
  rewrite (nth_indep _ (RtoC 0) (RtoC s * RtoC 0)%C) by (rewrite map_length; lia).
  now rewrite (map_nth (fun z => RtoC s * z)%C).
Qed.

Lemma square_ext n a b : square n a -> square n b ->
  (forall i j, (i < n)%nat -> (j < n)%nat -> entry a i j = entry b i j) -> a = b.
Proof.
  intros [LA SA] [LB SB] E. apply nth_ext with [] []; [congruence|]. intros i Hi. rewrite LA in Hi.
  assert (La : length (nth i a []) = n) by (apply SA, nth_In; lia).
  assert (Lb : length (nth i b []) = n) by (apply SB, nth_In; lia).
  apply nth_ext with (RtoC 0) (RtoC 0); [congruence|]. intros j Hj. rewrite La in Hj. now apply E.
Qed.

Lemma scaled_one m : scaled 1 m = m.
Proof.
  unfold scaled. rewrite <- (map_id m) at 2. apply map_ext. intros r. rewrite <- (map_id r) at 2. apply map_ext. intros z. ring.
Qed.

Lemma scaled_real s m : real_matrix m -> real_matrix (scaled s m).
Proof.
  intros H row Hr z Hz. apply in_map_iff in Hr as (r & <- & Hr). apply in_map_iff in Hz as (v & <- & Hv).
  apply cmult_parts; [reflexivity|exact (H r Hr v Hv)].
Qed.

Lemma imaginary_zero n m : square n m -> real_matrix m -> map (map snd) m = const_matrix 0 n.
Proof.
  intros [L S] H. unfold const_matrix. rewrite <- L at 2.
  assert (E : forall l : cmatrix, (forall row, In row l -> length row = n /\ reals row) ->
    map (map snd) l = repeat (repeat 0 n) (length l)).
  { induction l as [|r l IH]; intros K; [reflexivity|]. cbn [map length repeat]. f_equal.
    - destruct (K r (or_introl eq_refl)) as [Lr Rr]. rewrite <- Lr. exact (reals_snd r Rr).
    - apply IH. intros row Hr. apply K. now right. }
  apply E. intros row Hr. split; [now apply S|now apply H].
Qed.

(** For an even sum of degrees the samples come back multiplied by the cube of
    the ratio of the pivots of the two transforms. *)
Theorem bispec_unit g raw f ws wm rQ Q k_in k_out p s w B ic mono m l0 l1 km k b out : const2 spl2 -> exact2 spl2 ->
  plain_case3 g raw f ws wm rQ Q k_in k_out p s w B ic mono m l0 l1 km k b -> Z.even (l0 + l1) = true ->
  bispec_convolve spl2 simpson wigner w B ic = Ok out ->
  exists t0 t1 h,
    sbt_init g l0 0 km (p_pivot p) (p_low p) 0 (p_exp p) Outer = Ok t0 /\
    sbt_init g l1 0 km (p_pivot p) (p_low p) 0 (p_exp p) Outer = Ok t1 /\
    let ratio := (pivot (s_fbht t0) / pivot (s_fbht t1)) ^ 3 in
    spl2 (snd s) km (real_part (scaled ratio b)) = Ok h /\
    lookup out m = Ok (map (fun r => map (fun r' => RtoC (h r r')) (w_kout w)) (w_kout w)) /\
    (k_out = Some km -> lookup out m = Ok (scaled ratio b)).
Proof.
  intros C2 X2 PC EV HO.
  destruct (plain_parts3 _ _ _ _ _ _ _ _ _ _ _ _ _ _ _ _ _ _ _ _ _ _ C2 X2 PC HO)
    as (Eo & KO & _ & t & t' & y & c & zeta & Ht & Ht' & Hb & -> & SC & PE & _ & _ & _ & _ & _ & (yc & cc) & v & Ekp & Ev & Lv).
  destruct PC as (BF & BI & W & EX & G & HK & U & Hm & UF & IC & I0 & I1 & IK & N3 & PK & MK & LP & AK & SB & RB).
  rewrite (real_matrix_back c (PE EV)) in Ekp. cbn [snd] in Ev.
  destruct (py_prefactors (zsum [l0; l1]) 2) as (ff & fb & _ & F1 & _ & F2 & FF & _). rewrite Cmult_comm in FF.
  destruct (double_there_and_back _ _ _ _ _ _ _ _ _ _ _ _ _ _ _ _ _ _ _ _ _ _ _ _ _ _ G F2 F1 FF (or_introl eq_refl) Ht Ht' N3 PK HK MK AK SB Hb Ekp)
    as (t0 & t1 & H0 & H1 & Eyc & SCC & VC).
  set (ratio := (pivot (s_fbht t0) / pivot (s_fbht t1)) ^ 3) in *.
  destruct (scaled_square (length km) ratio b SB) as [SS VS].
  assert (ECC : cc = scaled ratio b).
  { apply (square_ext (length km)); [exact SCC|exact SS|]. intros i j Hi Hj. now rewrite VS, VC. }
  assert (EP : d_post t' = km).
  { destruct (dsbt_two _ _ _ _ _ _ _ _ _ _ _ Ht') as (v0 & v1 & V0 & V1 & ED').
    unfold d_multipoles in Ekp. rewrite ED' in Ekp. cbn [d_degrees length] in Ekp. rewrite F1 in Ekp.
    destruct (d_transform _ FloatArr c) as [af rr] eqn:ET. cbn [snd] in Ekp. apply bind_ok in Ekp as (((q0 & q1) & q) & -> & Ekp).
    cbn [fst snd] in Ekp. injection Ekp as Ey _. rewrite Eyc in Ey. injection Ey as -> ->.
    rewrite <- ED' in ET.
    destruct (double_points _ _ _ _ _ _ _ _ _ _ _ FloatArr c _ _ _ Ht' ltac:(rewrite ET; reflexivity)) as (a0 & a1 & A0 & A1 & E0 & _).
    rewrite V0 in A0. injection A0 as <-. rewrite ED'. cbn [d_post]. now symmetry. }
  subst cc. rewrite EP in Ev. exists t0, t1. unfold read_out2 in Ev.
  apply bind_ok in Ev as (fr & Efr & Ev). apply bind_ok in Ev as (fi & Efi & Ev). injection Ev as <-.
  exists fr. split; [exact H0|]. split; [exact H1|]. cbv zeta. fold ratio. split; [exact Efr|].
  pose proof (scaled_real ratio b RB) as RS.
  rewrite (imaginary_zero _ _ SS RS) in Efi. pose proof (C2 _ _ _ _ Efi) as Z0.
  assert (EM : lookup out m = Ok (map (fun r => map (fun r' => RtoC (fr r r')) (w_kout w)) (w_kout w))).
  { rewrite Lv. f_equal. apply map_ext. intros r. apply map_ext. intros r'. now rewrite Z0. }
  split; [exact EM|]. intros Ek. rewrite EM, (KO _ Ek). f_equal. rewrite <- (real_matrix_back _ RS).
  rewrite <- (grid_exact (length km) km fr _ X2 eq_refl SS (ex_intro _ _ Efr)). unfold grid. rewrite map_map.
  apply map_ext. intros r. now rewrite map_map.
Qed.

(** They come back as they were for equal degrees, and for pivots that are not
    adjusted. *)
Theorem bispec_unit_exact g raw f ws wm rQ Q k_in p s w B ic mono m l0 l1 km k b out : const2 spl2 -> exact2 spl2 ->
  plain_case3 g raw f ws wm rQ Q k_in (Some km) p s w B ic mono m l0 l1 km k b -> Z.even (l0 + l1) = true ->
  l0 = l1 \/ p_low p = false ->
  bispec_convolve spl2 simpson wigner w B ic = Ok out -> lookup out m = Ok b.
Proof.
  intros C2 X2 PC EV HL HO.
  destruct (bispec_unit _ _ _ _ _ _ _ _ _ _ _ _ _ _ _ _ _ _ _ _ _ _ C2 X2 PC EV HO) as (t0 & t1 & h & H0 & H1 & _ & _ & E).
  rewrite (E eq_refl). replace ((pivot (s_fbht t0) / pivot (s_fbht t1)) ^ 3) with 1; [now rewrite scaled_one|].
  destruct (sbt_init_plain _ _ _ _ _ _ _ _ _ H0) as (_ & _ & _ & _ & _ & _ & HH0).
  destruct (sbt_init_plain _ _ _ _ _ _ _ _ _ H1) as (_ & _ & _ & _ & _ & _ & HH1).
  pose proof (hankel_new_inv _ _ _ _ _ _ _ _ _ HH0) as J0. pose proof (hankel_new_inv _ _ _ _ _ _ _ _ _ HH1) as J1.
  assert (EP : pivot (s_fbht t0) = pivot (s_fbht t1)).
  { destruct HL as [-> | EL]; [rewrite H0 in H1; now injection H1 as <-|].
    rewrite (h_pivot _ _ _ _ _ _ _ _ _ J0), (h_pivot _ _ _ _ _ _ _ _ _ J1), EL. reflexivity. }
  rewrite EP. pose proof (h_pivpos _ _ _ _ _ _ _ _ _ J1). field. lra.
Qed.

(** For an odd sum of degrees the output is zero. *)
Theorem bispec_odd g raw f ws wm rQ Q k_in k_out p s w B ic mono m l0 l1 km k b out : const2 spl2 -> exact2 spl2 ->
  plain_case3 g raw f ws wm rQ Q k_in k_out p s w B ic mono m l0 l1 km k b -> Z.even (l0 + l1) = false ->
  bispec_convolve spl2 simpson wigner w B ic = Ok out ->
  lookup out m = Ok (map (fun _ => map (fun _ => RtoC 0) (w_kout w)) (w_kout w)).
Proof.
  intros C2 X2 PC EV HO.
  destruct (plain_parts3 _ _ _ _ _ _ _ _ _ _ _ _ _ _ _ _ _ _ _ _ _ _ C2 X2 PC HO)
    as (Eo & KO & _ & t & t' & y & c & zeta & Ht & Ht' & Hb & _ & SC & _ & PO & _ & _ & _ & _ & (yc & cc) & v & Ekp & Ev & Lv).
  destruct PC as (BF & BI & W & EX & G & HK & U & Hm & UF & IC & I0 & I1 & IK & N3 & PK & MK & LP & AK & SB & RB).
  specialize (PO EV). set (n := length km) in *.
  destruct (dsbt_two _ _ _ _ _ _ _ _ _ _ _ Ht) as (u0 & u1 & U0 & U1 & ED).
  destruct (post_positive _ _ _ _ _ _ _ _ _ U0 PK) as [LY PY].
  assert (EPO : d_post t = s_post u0) by now rewrite ED. rewrite EPO in Ht'.
  destruct (double_transform _ _ _ _ _ _ _ _ _ _ _ Ht' ltac:(lia) PY) as (v0 & v1 & K0 & K1 & V0 & V1 & _ & D).
  fold n in LY. rewrite LY in D.
  assert (ZC : map (map RtoC) (real_part c) = scaled 0 c).
  { unfold real_part, scaled. rewrite map_map. apply map_ext_in. intros r Hr. rewrite map_map. apply map_ext_in. intros z Hz.
    rewrite (PO r Hr z Hz). ring. }
  rewrite ZC in Ekp. destruct (scaled_square n 0 c SC) as [S0 V0'].
  destruct (D FloatArr (scaled 0 c) (or_introl eq_refl) S0) as (bb & EB & SBB & VB).
  destruct (dsbt_two _ _ _ _ _ _ _ _ _ _ _ Ht') as (w0 & w1 & W0 & W1 & ED').
  rewrite V0 in W0. injection W0 as <-.
  destruct (py_prefactors (zsum [l0; l1]) 2) as (ff & fb & _ & F1 & _).
  unfold d_multipoles in Ekp. rewrite ED' in Ekp. cbn [d_degrees length] in Ekp. rewrite <- ED', F1, EB in Ekp.
  cbn [bind fst snd] in Ekp. injection Ekp as _ <-. cbn [snd] in Ev.
  assert (EPT : d_post t' = s_post v0) by now rewrite ED'. 
  assert (LT : length (d_post t') = n).
  { rewrite EPT. destruct (post_positive _ _ _ _ _ _ _ _ _ V0 PY) as [L _]. congruence. }
  assert (EZ : bb = scaled 0 bb).
  { destruct (scaled_square n 0 bb SBB) as [S1 V1']. apply (square_ext n); [exact SBB|exact S1|]. intros i j Hi Hj.
    rewrite V1', VB by assumption. rewrite Cmult_0_l. apply total_zero. intros i' Hi'. apply total_zero. intros j' Hj'.
    rewrite V0' by assumption. ring. }
  set (r := map (map (fun z => z * ff)%C) bb) in *.
  assert (RZ : r = scaled 0 bb).
  { unfold r. rewrite EZ. unfold scaled. rewrite !map_map. apply map_ext. intros q. rewrite !map_map. apply map_ext. intros z. ring. }
  assert (SR : square n r) by (apply square_map; [exact SBB|intros q; now rewrite map_length]).
  assert (P1 : map (map fst) r = const_matrix 0 n /\ map (map snd) r = const_matrix 0 n).
  { assert (RR : real_matrix r).
    { intros q Hq z Hz. rewrite RZ in Hq. apply in_map_iff in Hq as (q' & <- & _). apply in_map_iff in Hz as (z' & <- & _).
      unfold Cmult, RtoC. cbn [fst snd]. ring. }
    split; [|now apply imaginary_zero]. rewrite <- (imaginary_zero n r SR RR). rewrite RZ. unfold scaled.
    rewrite !map_map. apply map_ext. intros q. rewrite !map_map. apply map_ext. intros z. unfold Cmult, RtoC. cbn [fst snd]. ring. }
  destruct P1 as [P1 P2]. unfold read_out2 in Ev. rewrite P1, P2, <- LT in Ev.
  apply bind_ok in Ev as (fr & Efr & Ev). apply bind_ok in Ev as (fi & Efi & Ev). injection Ev as <-.
  rewrite Lv. f_equal. apply map_ext. intros q. apply map_ext. intros q'. now rewrite (C2 _ _ _ _ Efr), (C2 _ _ _ _ Efi).
Qed.

(* ------------------------------------------------------------------ *)
(* C116: the caller's samples                                          *)

Lemma d_multipoles_after t dir k a : (exists f, py_prefactor (zsum (d_degrees t)) (length (d_degrees t)) dir = Ok f) ->
  fst (d_multipoles t dir k a) = fst (d_transform t k a).
Proof. intros [f E]. unfold d_multipoles. rewrite E. now destruct (d_transform t k a). Qed.

Lemma has_factors ell n d : d = DNum 1 \/ d = DNum (-1) -> exists f, py_prefactor ell n d = Ok f.
Proof.
  destruct (py_prefactors ell n) as (f & b & _ & F1 & _ & F2 & _). intros [->| ->]; eauto.
Qed.

Lemma rows_keep t k m : (forall row, fst (transform t k row) = Ok row) -> fst (rows t k m) = Ok m.
Proof.
  intros H. induction m as [|r m IH]; [reflexivity|]. cbn [rows]. specialize (H r).
  destruct (transform t k r) as [af [yg|e]]; cbn [fst] in H; subst af; [|reflexivity].
  destruct (rows t k m) as [af' r']. cbn [fst] in IH |- *. subst af'. reflexivity.
Qed.

Lemma dsbt_fields g l0 l1 x kr low ext ee e2d d : dsbt_init g [l0; l1] [0; 0]%Z x kr low (EInt ext) ee e2d = Ok d ->
  d_degrees d = [l0; l1] /\ d_extrap d = ext /\ d_extrap2d d = e2d /\
  exists t0 t1, d_t d = [t0; t1] /\ (e2d = false -> s_extrap t1 = ext /\ s_layer t1 = Outer).
Proof.
  unfold dsbt_init. destruct (negb _); [discriminate|]. intros H. apply bind_ok in H as (((nat & e) & q) & Hp & H).
  apply bind_ok in H as (ts & HS & H). cbn [combine map sequence fst snd] in HS.
  apply bind_ok in HS as (t0 & H0 & HS). apply bind_ok in HS as (ts' & HS & HT).
  apply bind_ok in HS as (t1 & H1 & HS). apply bind_ok in HS as (ts'' & HS & HT').
  injection HS as <-. injection HT' as <-. injection HT as <-. injection H as <-.
  cbn [d_degrees d_extrap d_extrap2d d_t]. do 3 (split; [reflexivity|]). exists t0, t1. split; [reflexivity|].
  intros ->. apply sbt_init_fields in H1 as (_ & -> & ->). split; [|reflexivity].
  destruct (Z.eqb_spec ext 0) as [->|NE]; [now injection Hp as <-|].
  destruct (Nat.odd _); [discriminate|]. cbn [negb] in Hp. now injection Hp as <-.
Qed.

(** With extrapolation, and for samples at new points, nothing is changed. *)
Theorem bispec_keeps g raw f ws wm k_in k_out rc p s w (B : list (mlike * samples (list (list C)))) :
  build_formulae raw = Ok f -> bispec_init g f ws wm k_in k_out rc p s = Ok w ->
  p_extrap p <> 0%Z \/ w_orig w <> None ->
  forall z k b, In z (f_Z f) -> raw_lookup B (ZPole z) = Ok (k, b) -> bispec_after w B z = Ok b.
Proof.
  intros BF W HX z k b Hz LP. unfold bispec_init in W. apply bind_ok in W as ((rQ & Q) & BI & W).
  apply bind_ok in W as (ki & _ & W). apply bind_ok in W as (bad & _ & W). apply bind_ok in W as (ki' & _ & W). cbn [fst snd] in W.
  destruct (fourier_init_inv _ _ _ _ _ _ _ _ _ _ _ _ _ _ BF BI W) as (Ef & _ & _ & _ & _ & _ & _ & _ & BK & _).
  destruct (BK z Hz) as (x & t & _ & Ht & Lt & _). unfold bispec_after. rewrite Lt, LP. cbn [bind fst snd].
  destruct (w_orig w) as [o|] eqn:Eo; [reflexivity|]. destruct HX as [HX|HX]; [|congruence].
  rewrite d_multipoles_after by (apply has_factors; now right).
  unfold new_double in Ht. apply bind_ok in Ht as (l0 & _ & Ht). apply bind_ok in Ht as (l1 & _ & Ht).
  destruct (dsbt_fields _ _ _ _ _ _ _ _ _ _ Ht) as (_ & EX & E2 & t0 & t1 & ET & EL).
  unfold d_transform. rewrite E2, EX, ET. destruct (p_2d p).
  - replace (p_extrap p =? 0)%Z with false by (symmetry; now apply Z.eqb_neq). reflexivity.
  - destruct (EL eq_refl) as [X1 X2].
    assert (K : forall row, fst (transform t1 k row) = Ok row).
    { intros row. apply transform_keeps. intros [[K|K] _]; congruence. }
    pose proof (rows_keep t1 k b K) as RK. destruct (rows t1 k b) as [af it]. exact RK.
Qed.

(** Without, every row of the caller's array comes back multiplied by the
    wavenumbers to the power 3/2: along the second index only. *)
Theorem bispec_scales g raw f ws wm k_in k_out rc p s w (B : list (mlike * samples (list (list C)))) ki :
  build_formulae raw = Ok f -> bispec_init g f ws wm k_in k_out rc p s = Ok w ->
  p_extrap p = 0%Z -> input_points f k_in = Ok ki -> first_unspaced ki = Ok None ->
  forall z kz k b, In z (f_Z f) -> zlookup ki (ZPole z) = Ok kz -> (3 <= length kz)%nat -> (forall r, In r kz -> 0 < r) ->
     raw_lookup B (ZPole z) = Ok (k, b) -> an_array k -> square (length kz) b ->
     exists b', bispec_after w B z = Ok b' /\ square (length kz) b' /\
       forall i j, (i < length kz)%nat -> (j < length kz)%nat ->
         entry b' i j = (entry b i j * RtoC (Rpower (nth j kz 0) (3 / 2)))%C.
Proof.
  intros BF W EX IP LS z kz k b Hz Lz N3 PZ LP AK SB. unfold bispec_init in W. apply bind_ok in W as ((rQ & Q) & BI & W).
  rewrite IP in W. cbn [bind fst snd] in W. unfold respaced in W. rewrite LS in W. cbn [bind] in W.
  destruct (fourier_init_inv _ _ _ _ _ _ _ _ _ _ _ _ _ _ BF BI W) as (Ef & _ & _ & _ & _ & _ & Eo & _ & BK & _).
  destruct (BK z Hz) as (x & t & Lx & Ht & Lt & _). rewrite Lz in Lx. injection Lx as <-.
  unfold new_double in Ht. apply bind_ok in Ht as (l0 & _ & Ht). apply bind_ok in Ht as (l1 & _ & Ht). rewrite EX in Ht.
  destruct (double_transform _ _ _ _ _ _ _ _ _ _ _ Ht N3 PZ) as (t0 & t1 & K0 & K1 & H0 & H1 & T & D).
  destruct (D k b AK SB) as (c & EC & _ & _). exists (map (weighed kz) b).
  unfold bispec_after. rewrite Lt, LP, Eo. cbn [bind fst snd].
  rewrite d_multipoles_after by (apply has_factors; now right). rewrite EC. split; [reflexivity|].
  split; [apply square_map; [exact SB|intros r _; unfold weighed; now rewrite map_length, seq_length]|].
  intros i j Hi Hj. rewrite (entry_map (length kz)) by assumption. unfold weighed. now rewrite nth_tabC by exact Hj.
Qed.

(** So convolving twice with a window of ones gives two bispectra. *)
Theorem bispec_again g raw f ws wm rQ Q k_in p s w (B B' : list (mlike * samples (list (list C)))) ic mono m l km k b b' out out' :
  const2 spl2 -> exact2 spl2 ->
  plain_case3 g raw f ws wm rQ Q k_in (Some km) p s w B ic mono m l l km k b ->
  bispec_after w B m = Ok b' -> raw_lookup B' (ZPole m) = Ok (k, b') ->
  bispec_convolve spl2 simpson wigner w B ic = Ok out -> bispec_convolve spl2 simpson wigner w B' ic = Ok out' ->
  lookup out m = Ok b /\ lookup out' m = Ok b' /\
  forall i j, (i < length km)%nat -> (j < length km)%nat ->
    entry b' i j = (entry b i j * RtoC (Rpower (nth j km 0) (3 / 2)))%C.
Proof.
  intros C2 X2 PC AF LP' HO HO'.
  assert (EV : Z.even (l + l) = true) by (apply Z.even_spec; exists l; lia).
  split; [exact (bispec_unit_exact _ _ _ _ _ _ _ _ _ _ _ _ _ _ _ _ _ _ _ _ _ C2 X2 PC EV (or_introl eq_refl) HO)|].
  pose proof PC as (BF & BI & W & EX & G & HK & U & Hm & UF & IC & I0 & I1 & (ki & IP & LS & Lk) & N3 & PK & MK & LP & AK & SB & RB).
  destruct (plain_parts3 _ _ _ _ _ _ _ _ _ _ _ _ _ _ _ _ _ _ _ _ _ _ C2 X2 PC HO) as (_ & _ & HmZ & _).
  destruct (bispec_scales _ _ _ _ _ _ _ _ _ _ _ B _ BF W EX IP LS m km k b HmZ Lk N3 PK LP AK SB) as (b0 & EB & SB0 & V).
  rewrite AF in EB. injection EB as <-. split; [|exact V].
  assert (RB' : real_matrix b').
  { intros row Hr z Hz. apply (In_nth _ _ []) in Hr as (i & Hi & <-). apply (In_nth _ _ (RtoC 0)) in Hz as (j & Hj & <-).
    pose proof SB0 as [L0 S0]. rewrite L0 in Hi. rewrite (S0 (nth i b' [])) in Hj by (apply nth_In; lia).
    change (snd (entry b' i j) = 0). rewrite V by assumption. apply cmult_parts; [now apply (entry_real (length km))|reflexivity]. }
  assert (PC' : plain_case3 g raw f ws wm rQ Q k_in (Some km) p s w B' ic mono m l l km k b').
  { unfold plain_case3. do 12 (split; [assumption|]). split; [exists ki; auto|]. do 6 (split; [assumption|]). exact RB'. }
  exact (bispec_unit_exact _ _ _ _ _ _ _ _ _ _ _ _ _ _ _ _ _ _ _ _ _ C2 X2 PC' EV (or_introl eq_refl) HO').
Qed.

End Three.
