(* Convolved bispectra are linear in the samples without extrapolation, and
   with padding, constant or linear extrapolation (C120). *)
From Coq Require Import String.
From Coq Require Import Reals ZArith List Lia Lra Bool.
From Coquelicot Require Import Complex.
From Verif Require Import Base ArrayModel ArrayProofs Array2dModel RSum MultipoleModel
  WindowModel WindowProps WinConvModel WinConvProps WinConvSumProps
  OscilModel Dft FftlogModel FftlogProofs FftlogProps TransformModel TransformProps FourierConvModel
  FourierConvProps FourierConv3Props FourierConvResampleProps ExtrapLinearProps.
Import ListNotations.
Local Open Scope R_scope.

(* ------------------------------------------------------------------ *)
(* Vocabulary                                                          *)

(** [a] times one array plus [b] times another. *)
Definition mcomb (a : R) (x : matrix) (b : R) (y : matrix) : matrix :=
  map (fun p => lincomb a (fst p) b (snd p)) (combine x y).

Definition same_shape (x y : matrix) : Prop := map (@length R) x = map (@length R) y.

(** Assumptions on surfaces through samples: whether there is one depends on
    the points and the shape of the array, not on its entries; and the surface
    is linear in the entries. *)
Definition by_shape (spl2 : nat -> list R -> matrix -> res (R -> R -> R)) : Prop :=
  forall k x y z f, spl2 k x y = Ok f -> same_shape y z -> exists g, spl2 k x z = Ok g.
Definition linear2 (spl2 : nat -> list R -> matrix -> res (R -> R -> R)) : Prop :=
  forall k x y z fy fz a b, spl2 k x y = Ok fy -> spl2 k x z = Ok fz -> same_shape y z ->
    exists g, spl2 k x (mcomb a y b z) = Ok g /\ forall r r', g r r' = a * fy r r' + b * fz r r'.

(** Integration along one index is linear in the samples. *)
Definition linear_integral (simpson : list R -> list R -> R) : Prop :=
  forall x y z a b, length y = length z ->
    simpson x (lincomb a y b z) = a * simpson x y + b * simpson x z.

(** Square arrays of [n] by [n] complex numbers, the third [a] times the first
    plus [b] times the second. *)
Definition combined (a b : R) (n : nat) (m1 m2 m3 : TransformModel.cmatrix) : Prop :=
  square n m1 /\ square n m2 /\ square n m3 /\
  forall i j, (i < n)%nat -> (j < n)%nat ->
    entry m3 i j = (RtoC a * entry m1 i j + RtoC b * entry m2 i j)%C.

(* ------------------------------------------------------------------ *)
(* Three runs side by side                                             *)

Lemma on_keys_three {A B D} (g1 : list Z -> res A) (g2 : list Z -> res B) (g3 : list Z -> res D)
    (P : list Z -> A -> B -> D -> Prop) ks d1 : NoDup ks -> on_keys g1 ks = Ok d1 ->
  (forall k x, In k ks -> g1 k = Ok x -> exists y z, g2 k = Ok y /\ g3 k = Ok z /\ P k x y z) ->
  exists d2 d3, on_keys g2 ks = Ok d2 /\ on_keys g3 ks = Ok d3 /\
    map fst d1 = ks /\ map fst d2 = ks /\ map fst d3 = ks /\
    forall k, In k ks -> exists x y z, lookup d1 k = Ok x /\ lookup d2 k = Ok y /\ lookup d3 k = Ok z /\ P k x y z.
Proof.
  intros N H1 H. destruct (on_keys_inv _ _ _ N H1) as [K1 V1].
  destruct (on_keys_all g2 (fun k y => exists x z, g1 k = Ok x /\ g3 k = Ok z /\ P k x y z) ks N) as (d2 & E2 & K2 & V2).
  { intros k Hk. destruct (V1 k Hk) as (x & Ex & _). destruct (H k x Hk Ex) as (y & z & Ey & Ez & HP). exists y. eauto 6. }
  destruct (on_keys_all g3 (fun k z => exists x y, g1 k = Ok x /\ g2 k = Ok y /\ P k x y z) ks N) as (d3 & E3 & K3 & V3).
  { intros k Hk. destruct (V1 k Hk) as (x & Ex & _). destruct (H k x Hk Ex) as (y & z & Ey & Ez & HP). exists z. eauto 6. }
  exists d2, d3. do 2 (split; [assumption|]). do 3 (split; [assumption|]).
  intros k Hk. destruct (V1 k Hk) as (x & Ex & Lx). destruct (V3 k Hk) as (z & Lz & x' & y & Ex' & Ey & HP).
  rewrite Ex in Ex'. injection Ex' as <-. exists x, y, z. do 2 (split; [try assumption|]); [|auto].
  destruct (on_keys_inv _ _ _ N E2) as [_ W2]. destruct (W2 k Hk) as (y' & Ey' & Ly). rewrite Ey in Ey'. now injection Ey' as <-.
Qed.

Lemma sequence_three {X A B D} (g1 : X -> res A) (g2 : X -> res B) (g3 : X -> res D)
    (P : X -> A -> B -> D -> Prop) l l1 : sequence (map g1 l) = Ok l1 ->
  (forall t x, In t l -> g1 t = Ok x -> exists y z, g2 t = Ok y /\ g3 t = Ok z /\ P t x y z) ->
  exists l2 l3, sequence (map g2 l) = Ok l2 /\ sequence (map g3 l) = Ok l3 /\
    Forall2 (fun txy z => P (fst txy) (fst (snd txy)) (snd (snd txy)) z) (combine l (combine l1 l2)) l3 /\
    length l1 = length l /\ length l2 = length l.
Proof.
  revert l1. induction l as [|t l IH]; intros l1 H HP; cbn [map sequence] in *.
  - injection H as <-. exists [], []. repeat split; constructor.
  - apply bind_ok in H as (x & Ex & H). apply bind_ok in H as (l1' & El & H). injection H as <-.
    destruct (HP t x (or_introl eq_refl) Ex) as (y & z & Ey & Ez & Hp).
    destruct (IH l1' El) as (l2 & l3 & E2 & E3 & F & L1 & L2). { intros t' x' I. apply HP. now right. }
    exists (y :: l2), (z :: l3). rewrite Ey, Ez, E2, E3. cbn [bind combine length]. repeat split; try congruence.
    now constructor.
Qed.

(* ------------------------------------------------------------------ *)
(* Arrays                                                              *)

Lemma lincomb_maps {X} (f g : X -> R) a b l :
  lincomb a (map f l) b (map g l) = map (fun x => a * f x + b * g x) l.
Proof. unfold lincomb. induction l as [|x l IH]; [reflexivity|]. cbn [map combine fst snd]. now f_equal. Qed.

Lemma grid_comb a b f g r :
  mcomb a (grid f r) b (grid g r) = grid (fun x y => a * f x y + b * g x y) r.
Proof.
  unfold mcomb, grid.
  assert (G : forall l, map (fun p : list R * list R => lincomb a (fst p) b (snd p))
      (combine (map (fun x => map (fun y => f x y) r) l) (map (fun x => map (fun y => g x y) r) l))
      = map (fun x => map (fun y => a * f x y + b * g x y) r) l).
  { induction l as [|x l IH]; [reflexivity|]. cbn [map combine fst snd]. rewrite lincomb_maps. now f_equal. }
  apply G.
Qed.

Lemma grid_shape f g r : same_shape (grid f r) (grid g r).
Proof. unfold same_shape, grid. rewrite !map_map. apply map_ext. intros x. now rewrite !map_length. Qed.

Lemma part_comb (part : C -> R) a b n m1 m2 m3 :
  (forall u v, part (RtoC a * u + RtoC b * v)%C = a * part u + b * part v) ->
  combined a b n m1 m2 m3 ->
  same_shape (map (map part) m1) (map (map part) m2) /\
  map (map part) m3 = mcomb a (map (map part) m1) b (map (map part) m2).
Proof.
  intros HP (S1 & S2 & S3 & E).
  assert (SH : forall m, square n m -> map (@length R) (map (map part) m) = repeat n n).
  { intros m [L S]. rewrite map_map. rewrite <- L at 2. clear L. induction m as [|r m IH]; [reflexivity|]. cbn [map length repeat].
    rewrite map_length, (S r) by now left. f_equal. apply IH. intros r' Hr. apply S. now right. }
  split; [unfold same_shape; now rewrite !SH|].
  pose proof S1 as [L1 R1]. pose proof S2 as [L2 R2]. pose proof S3 as [L3 R3].
  apply nth_ext with [] []; [unfold mcomb; rewrite !map_length, combine_length, !map_length; lia|].
  rewrite map_length. intros i Hi. rewrite L3 in Hi.
  unfold mcomb. set (h := fun p : list R * list R => lincomb a (fst p) b (snd p)).
  change (@nil R) with (h ([], [])) at 2. rewrite (map_nth h), combine_nth by (rewrite !map_length; lia).
  change (@nil R) with (map part []). rewrite !(map_nth (map part)). unfold h. cbn [fst snd].
  pose proof (square_nth n m1 i S1 Hi) as A1. pose proof (square_nth n m2 i S2 Hi) as A2. pose proof (square_nth n m3 i S3 Hi) as A3.
  apply nth_ext with (part (RtoC 0)) 0; [unfold lincomb; rewrite !map_length, combine_length, !map_length; lia|].
  rewrite map_length. intros j Hj. rewrite A3 in Hj. rewrite (map_nth part).
  change (nth j (nth i m3 []) (RtoC 0)) with (entry m3 i j). rewrite E, HP by assumption.
  unfold lincomb. set (h' := fun p : R * R => a * fst p + b * snd p).
  rewrite (nth_indep _ 0 (h' (part (RtoC 0), part (RtoC 0)))) by (rewrite map_length, combine_length, !map_length; lia).
  rewrite (map_nth h'), combine_nth by (rewrite !map_length; lia). rewrite !(map_nth part). reflexivity.
Qed.

Lemma part_alike (part : C -> R) a b m1 m2 m3 :
  (forall u v, part (RtoC a * u + RtoC b * v)%C = a * part u + b * part v) ->
  alike a b m1 m2 m3 ->
  same_shape (map (map part) m1) (map (map part) m2) /\
  map (map part) m3 = mcomb a (map (map part) m1) b (map (map part) m2).
Proof.
  intros HP H. unfold same_shape, mcomb. induction H as [|x y z m1 m2 m3 H _ [IH IH']]; [auto|]. cbn [map combine fst snd]. split.
  - rewrite !map_length, (proj1 (three_length _ _ _ _ H)), IH. reflexivity.
  - rewrite IH'. f_equal. clear - HP H. induction H as [|u v w l1 l2 l3 E _ IH]; [reflexivity|].
    unfold lincomb in *. cbn [map combine fst snd]. rewrite IH, E, HP. reflexivity.
Qed.

Lemma three_nths {A} (P : A -> A -> A -> Prop) d l1 l2 l3 : length l2 = length l1 -> length l3 = length l1 ->
  (forall i, (i < length l1)%nat -> P (nth i l1 d) (nth i l2 d) (nth i l3 d)) -> three P l1 l2 l3.
Proof.
  revert l2 l3. induction l1 as [|x l1 IH]; intros [|y l2] [|z l3] E F H; try discriminate; constructor.
  - apply (H 0%nat). cbn. lia.
  - apply IH; [now injection E|now injection F|]. intros i Hi. apply (H (S i)). cbn. lia.
Qed.

Lemma combined_alike a b n m1 m2 m3 : combined a b n m1 m2 m3 -> alike a b m1 m2 m3.
Proof.
  intros (S1 & S2 & S3 & E). pose proof S1 as [L1 _]. pose proof S2 as [L2 _]. pose proof S3 as [L3 _].
  apply (three_nths _ []); [congruence|congruence|]. rewrite L1. intros i Hi.
  pose proof (square_nth n m1 i S1 Hi) as A1. pose proof (square_nth n m2 i S2 Hi) as A2. pose proof (square_nth n m3 i S3 Hi) as A3.
  apply (three_nths _ (RtoC 0)); [congruence|congruence|]. rewrite A1. intros j Hj. exact (E i j Hi Hj).
Qed.

(** Real arrays of one shape and their combination, as complex arrays. *)
Lemma shape_alike a b x y : same_shape x y ->
  alike a b (map (map RtoC) x) (map (map RtoC) y) (map (map RtoC) (mcomb a x b y)).
Proof.
  unfold same_shape, mcomb. revert y. induction x as [|r x IH]; intros [|q y] H; try discriminate; [constructor|].
  cbn [map combine fst snd] in *. injection H as H1 H2. constructor; [|now apply IH]. clear - H1.
  revert q H1. induction r as [|u r IH]; intros [|v q] H; try discriminate; [constructor|]. unfold lincomb in *. cbn [map combine fst snd].
  constructor; [|apply IH; now injection H]. unfold ccomb, Cplus, Cmult, RtoC. cbn [fst snd]. f_equal; ring.
Qed.

Lemma fst_comb a b u v : fst (RtoC a * u + RtoC b * v)%C = a * fst u + b * fst v.
Proof. unfold Cplus, Cmult, RtoC. cbn [fst snd]. ring. Qed.
Lemma snd_comb a b u v : snd (RtoC a * u + RtoC b * v)%C = a * snd u + b * snd v.
Proof. unfold Cplus, Cmult, RtoC. cbn [fst snd]. ring. Qed.

Lemma grid_square (f : R -> R -> C) r :
  square (length r) (map (fun x => map (fun y => f x y) r) r) /\
  forall i j, (i < length r)%nat -> (j < length r)%nat ->
    entry (map (fun x => map (fun y => f x y) r) r) i j = f (nth i r 0) (nth j r 0).
Proof.
  split; [split; [apply map_length|]; intros row Hr; apply in_map_iff in Hr as (x & <- & _); apply map_length|].
  intros i j Hi Hj. unfold entry.
  rewrite (nth_indep _ [] (map (fun y => f 0 y) r)) by (rewrite map_length; exact Hi).
  rewrite (map_nth (fun x => map (fun y => f x y) r)).
  rewrite (nth_indep _ (RtoC 0) (f (nth i r 0) 0)) by (rewrite map_length; exact Hj).
  now rewrite (map_nth (fun y => f (nth i r 0) y)).
Qed.

Lemma grid_combined a b f g r :
  combined a b (length r) (map (map RtoC) (grid f r)) (map (map RtoC) (grid g r))
    (map (map RtoC) (grid (fun x y => a * f x y + b * g x y) r)).
Proof.
  assert (G : forall h, map (map RtoC) (grid h r) = map (fun x => map (fun y => RtoC (h x y)) r) r).
  { intros h. unfold grid. rewrite map_map. apply map_ext. intros x. now rewrite map_map. }
  rewrite !G.
  destruct (grid_square (fun x y => RtoC (f x y)) r) as [S1 V1].
  destruct (grid_square (fun x y => RtoC (g x y)) r) as [S2 V2].
  destruct (grid_square (fun x y => RtoC (a * f x y + b * g x y)) r) as [S3 V3].
  refine (conj S1 (conj S2 (conj S3 _))). intros i j Hi Hj. rewrite V1, V2, V3 by assumption.
  unfold Cplus, Cmult, RtoC. cbn [fst snd]. f_equal; ring.
Qed.

(* ------------------------------------------------------------------ *)
(* Transforms                                                          *)

(** A double transform without extrapolation is linear. *)
Theorem double_linear g l0 l1 n0 n1 x kr low ee e2d d dir k1 k2 k3 a b m1 m2 m3 :
  dsbt_init g [l0; l1] [n0; n1] x kr low (EInt 0) ee e2d = Ok d ->
  (3 <= length x)%nat -> (forall r, In r x -> 0 < r) -> an_array k1 -> an_array k2 -> an_array k3 ->
  dir = DNum 1 \/ dir = DNum (-1) -> combined a b (length x) m1 m2 m3 ->
  exists y c1 c2 c3, snd (d_multipoles d dir k1 m1) = Ok (y, c1) /\ snd (d_multipoles d dir k2 m2) = Ok (y, c2) /\
    snd (d_multipoles d dir k3 m3) = Ok (y, c3) /\ combined a b (length x) c1 c2 c3.
Proof.
  intros H N3 P A1 A2 A3 HD (S1 & S2 & S3 & E).
  destruct (double_transform _ _ _ _ _ _ _ _ _ _ _ H N3 P) as (t0 & t1 & K0 & K1 & H0 & H1 & T & D).
  destruct (has_factors (zsum (d_degrees d)) (length (d_degrees d)) dir HD) as [fc F].
  destruct (D k1 m1 A1 S1) as (c1 & E1 & Q1 & V1). destruct (D k2 m2 A2 S2) as (c2 & E2 & Q2 & V2).
  destruct (D k3 m3 A3 S3) as (c3 & E3 & Q3 & V3).
  unfold d_multipoles. rewrite F, E1, E2, E3. cbn [bind fst snd].
  do 4 eexists. do 3 (split; [reflexivity|]). set (n := length x) in *.
  assert (SM : forall c, square n c -> square n (map (map (fun z => z * fc)%C) c)) by (intros c S; apply square_map; [exact S|intros r; now rewrite map_length]).
  refine (conj (SM _ Q1) (conj (SM _ Q2) (conj (SM _ Q3) _))). intros i j Hi Hj.
  assert (EM : forall c, square n c -> entry (map (map (fun z => z * fc)%C) c) i j = (entry c i j * fc)%C).
  { intros c S. rewrite (entry_map n) by assumption. pose proof (square_nth n c i S Hi) as L.
    rewrite (nth_indep _ (RtoC 0) (RtoC 0 * fc)%C) by (rewrite map_length; lia). now rewrite (map_nth (fun z => z * fc)%C). }
  rewrite !EM by assumption. rewrite V1, V2, V3 by assumption.
  replace (total n (fun i' => total n (fun j' => K0 i i' * K1 j j' * entry m3 i' j')))%C
    with (RtoC a * total n (fun i' => total n (fun j' => K0 i i' * K1 j j' * entry m1 i' j'))
        + RtoC b * total n (fun i' => total n (fun j' => K0 i i' * K1 j j' * entry m2 i' j')))%C; [ring|].
  rewrite <- !total_scal, <- total_plus. apply total_ext. intros i' Hi'. rewrite <- !total_scal, <- total_plus.
  apply total_ext. intros j' Hj'. rewrite E by assumption. ring.
Qed.

Section Linear.
Variable spl2 : nat -> list R -> matrix -> res (R -> R -> R).
Variable simpson : list R -> list R -> R.
Variable wigner : Z -> Z -> Z -> R.
Hypothesis HS : by_shape spl2.
Hypothesis HL : linear2 spl2.

Lemma surfaces k x y z f a b : spl2 k x y = Ok f -> same_shape y z ->
  exists g h, spl2 k x z = Ok g /\ spl2 k x (mcomb a y b z) = Ok h /\ forall r r', h r r' = a * f r r' + b * g r r'.
Proof.
  intros E S. destruct (HS _ _ _ _ _ E S) as [g Eg]. destruct (HL _ _ _ _ _ _ a b E Eg S) as (h & Eh & V). eauto 6.
Qed.

(* ------------------------------------------------------------------ *)
(* Configuration space                                                 *)

(** Three sets of input samples, the third combined from the others. *)
Definition inputs_combined (a b : R) (ks : list (list Z)) (z1 z2 z3 : mdict WinConvModel.cmatrix) : Prop :=
  map fst z1 = ks /\ map fst z2 = ks /\ map fst z3 = ks /\
  forall k, In k ks -> exists x1 x2 x3,
    lookup z1 k = Ok x1 /\ lookup z2 k = Ok x2 /\ lookup z3 k = Ok x3 /\ alike a b x1 x2 x3.

(** An integral constraint given three times, combined in the same way, or
    not at all. *)
Definition given_combined (a b : R) (i1 i2 i3 : option R) : Prop :=
  match i1, i2, i3 with
  | None, None, None => True
  | Some v1, Some v2, Some v3 => v3 = a * v1 + b * v2
  | _, _, _ => False
  end.

Lemma integrate_comb x a b f g h : linear_integral simpson -> 
  integrate2 simpson x x (mmul (grid h x) (grid (fun r r' => a * f r r' + b * g r r') x))
  = a * integrate2 simpson x x (mmul (grid h x) (grid f x)) + b * integrate2 simpson x x (mmul (grid h x) (grid g x)).
Proof.
  intros LI. unfold integrate2.
  assert (M : forall p q, mmul (grid p x) (grid q x) = grid (fun r r' => p r r' * q r r') x).
  { intros p q. unfold mmul, grid.
    assert (G : forall l, map (fun rs : list R * list R => map (fun xy => fst xy * snd xy) (combine (fst rs) (snd rs)))
      (combine (map (fun r => map (fun r' => p r r') x) l) (map (fun r => map (fun r' => q r r') x) l))
      = map (fun r => map (fun r' => p r r' * q r r') x) l).
    { induction l as [|r l IH]; [reflexivity|]. cbn [map combine fst snd]. rewrite IH. f_equal.
      clear. induction x as [|r' x IH]; [reflexivity|]. cbn [map combine fst snd]. now f_equal. }
    apply G. }
  rewrite !M.
  assert (W : forall q, map (fun xr : R * list R => simpson x (map (fun yz => snd yz * fst yz * fst yz) (combine x (snd xr))) * fst xr * fst xr)
       (combine x (grid q x)) = map (fun r => simpson x (map (fun r' => q r r' * r' * r') x) * r * r) x).
  { intros q. unfold grid.
    assert (G : forall l, map (fun xr : R * list R => simpson x (map (fun yz => snd yz * fst yz * fst yz) (combine x (snd xr))) * fst xr * fst xr)
       (combine l (map (fun r => map (fun r' => q r r') x) l)) = map (fun r => simpson x (map (fun r' => q r r' * r' * r') x) * r * r) l).
    { induction l as [|r l IH]; [reflexivity|]. cbn [map combine fst snd]. rewrite IH. do 3 f_equal. f_equal.
      clear. induction x as [|r' x IH]; [reflexivity|]. cbn [map combine fst snd]. now f_equal. }
    apply G. }
  rewrite !W.
  rewrite <- LI by now rewrite !map_length. rewrite lincomb_maps. f_equal. apply map_ext. intros r.
  assert (E : map (fun r' => h r r' * (a * f r r' + b * g r r') * r' * r') x
    = lincomb a (map (fun r' => h r r' * f r r' * r' * r') x) b (map (fun r' => h r r' * g r r' * r' * r') x)).
  { rewrite lincomb_maps. apply map_ext. intros r'. ring. }
  rewrite E, LI by now rewrite !map_length. ring.
Qed.

(** The integral constraint that is worked out is linear in the samples. *)
Theorem ic_linear ws wm r z1 z2 z3 rc approx k a b ks v1 w1 : linear_integral simpson -> NoDup ks ->
  inputs_combined a b ks z1 z2 z3 ->
  calc_threept_ic spl2 simpson wigner ws wm r (as_keys z1) rc approx k = Ok (v1, w1) ->
  exists v2, calc_threept_ic spl2 simpson wigner ws wm r (as_keys z2) rc approx k = Ok (v2, w1) /\
    calc_threept_ic spl2 simpson wigner ws wm r (as_keys z3) rc approx k = Ok (a * v1 + b * v2, w1).
Proof.
  intros LI N (K1 & K2 & K3 & V) H. unfold calc_threept_ic in *.
  apply bind_ok in H as (wm' & Ewm & H). rewrite Ewm. cbn [bind].
  rewrite coerce_as_keys in H by (rewrite K1; exact N). rewrite !coerce_as_keys by (rewrite ?K2, ?K3; exact N). cbn [bind] in H |- *.
  apply bind_ok in H as (ws' & Ews & H). rewrite Ews. cbn [bind].
  assert (KE : forall (x : list R), map (fun kv : list Z * WinConvModel.cmatrix => (fst kv, x)) z2 = map (fun kv => (fst kv, x)) z1
     /\ map (fun kv : list Z * WinConvModel.cmatrix => (fst kv, x)) z3 = map (fun kv => (fst kv, x)) z1).
  { intros x. assert (G : forall d : mdict WinConvModel.cmatrix, map fst d = ks -> map (fun kv => (fst kv, x)) d = map (fun k => (k, x)) ks).
    { intros d <-. now rewrite map_map. } now rewrite !G. }
  apply bind_ok in H as (r' & Er & H).
  assert (Er2 : match r with Each l => coerce l | One x => Ok (map (fun kv => (fst kv, x)) z2) end = Ok r').
  { destruct r; [|exact Er]. now rewrite (proj1 (KE _)). }
  assert (Er3 : match r with Each l => coerce l | One x => Ok (map (fun kv => (fst kv, x)) z3) end = Ok r').
  { destruct r; [|exact Er]. now rewrite (proj2 (KE _)). }
  rewrite Er2, Er3. cbn [bind]. clear KE Er Er2 Er3. cbv zeta in H |- *.
  assert (NW : NoDup (map fst wm')).
  { destruct (coerce_ok_keys _ _ Ewm) as [kk HK]. destruct (coerce_keys _ _ HK) as (d & Hd & Nd & _).
    rewrite Ewm in Hd. now injection Hd as <-. }
  assert (HK : forall d d' : mdict WinConvModel.cmatrix, map fst d = ks -> map fst d' = ks -> filter (has_key d) (map fst wm') = filter (has_key d') (map fst wm')).
  { intros d d' Hd Hd'. apply filter_ext. intros m. apply eq_true_iff_eq. now rewrite !has_key_spec, Hd, Hd'. }
  rewrite (HK z2 z1 K2 K1), (HK z3 z1 K3 K1). clear HK.
  set (ms := if approx then [monopole] else filter (has_key z1) (map fst wm')) in *.
  assert (NM : NoDup ms).
  { unfold ms. destruct approx; [constructor; [intros []|constructor]|now apply NoDup_filter]. }
  clearbody ms. destruct (negb approx && negb (existsb (meq monopole) ms)); [discriminate|].
  destruct (negb (subset_keys ms ws')); [discriminate|]. destruct (negb (subset_keys ms r')); [discriminate|].
  set (rcd := match rc with CNone => map (fun kv => (MCopy (fst kv), snd kv)) r' | COne x => map (fun m => (MCopy m, x)) ms | CEach l => l end) in *.
  apply bind_ok in H as (c1 & C1 & H). apply bind_ok in H as (c2 & C2 & H). rewrite C1, C2. cbn [bind].
  apply bind_ok in H as (Q & EQ & H). rewrite EQ. cbn [bind]. apply bind_ok in H as (Z1 & EZ & H).
  destruct (on_keys_three _
     (fun m => rz <- lookup r' m ;; z <- lookup z2 m ;; f <- spl2 k rz (real_part z) ;; x <- raw_lookup rcd (ZPole m) ;; Ok (grid f x))
     (fun m => rz <- lookup r' m ;; z <- lookup z3 m ;; f <- spl2 k rz (real_part z) ;; x <- raw_lookup rcd (ZPole m) ;; Ok (grid f x))
     (fun m x y z => exists p f g, raw_lookup rcd (ZPole m) = Ok p /\ x = grid f p /\ y = grid g p /\ z = grid (fun u v => a * f u v + b * g u v) p)
     ms Z1 NM EZ) as (Z2 & Z3 & EZ2 & EZ3 & _ & _ & _ & VZ).
  { intros m x Hm E. apply bind_ok in E as (rz & E1 & E). apply bind_ok in E as (z & E2 & E). apply bind_ok in E as (f & E3 & E).
    apply bind_ok in E as (p & E4 & E). injection E as <-.
    assert (Hk : In m ks) by (rewrite <- K1; apply lookup_some_in in E2; now apply (in_map fst) in E2).
    destruct (V m Hk) as (x1 & x2 & x3 & L1 & L2 & L3 & CO). rewrite E2 in L1. injection L1 as <-.
    destruct (part_alike fst a b z x2 x3 (fst_comb a b) CO) as [SH EM]. change (map (map fst)) with real_part in SH, EM.
    destruct (surfaces k rz _ _ f a b E3 SH) as (g & h & Eg & Eh & Vh). rewrite <- EM in Eh.
    exists (grid g p), (grid h p). rewrite E1, L2, L3. cbn [bind]. rewrite Eg, Eh, E4. cbn [bind].
    do 2 (split; [reflexivity|]). exists p, f, g. do 3 (split; [auto|]).
    unfold grid. apply map_ext. intros u. apply map_ext. intros v. apply Vh. }
  rewrite EZ2, EZ3. cbn [bind]. apply bind_ok in H as (ns & EN & H).
  destruct (on_keys_inv _ _ _ NM EQ) as [_ VQ].
  destruct (sequence_three _
     (fun m => c <- ic_factor wigner m ;; x <- raw_lookup rcd (ZPole m) ;; q <- lookup Q m ;; z <- lookup Z2 m ;; Ok (c * integrate2 simpson x x (mmul q z)))
     (fun m => c <- ic_factor wigner m ;; x <- raw_lookup rcd (ZPole m) ;; q <- lookup Q m ;; z <- lookup Z3 m ;; Ok (c * integrate2 simpson x x (mmul q z)))
     (fun _ x y z => z = a * x + b * y) ms ns EN) as (n2 & n3 & EN2 & EN3 & F & L1 & L2).
  { intros m x Hm E. apply bind_ok in E as (c & E1 & E). apply bind_ok in E as (p & E2 & E). apply bind_ok in E as (q & E3 & E).
    apply bind_ok in E as (z & E4 & E). injection E as <-.
    destruct (VZ m Hm) as (x1 & x2 & x3 & A1 & A2 & A3 & p' & f & g & Ep & -> & -> & ->).
    rewrite E4 in A1. injection A1 as ->. rewrite E2 in Ep. injection Ep as <-.
    destruct (VQ m Hm) as (q' & Eq & Lq). rewrite E3 in Lq. injection Lq as <-.
    apply bind_ok in Eq as (rw & _ & Eq). apply bind_ok in Eq as (q0 & _ & Eq). apply bind_ok in Eq as (fq & _ & Eq).
    apply bind_ok in Eq as (p' & Ep & Eq). rewrite E2 in Ep. injection Ep as <-. injection Eq as <-.
    rewrite E1, E2, E3, A2, A3. cbn [bind]. do 2 eexists. do 2 (split; [reflexivity|]).
    rewrite integrate_comb by exact LI. ring. }
  rewrite EN2, EN3. cbn [bind]. apply bind_ok in H as (p & Ep & H). apply bind_ok in H as (q & Eq & H). rewrite Ep, Eq. cbn [bind] in H |- *.
  destruct (Reqb _ 0) eqn:E0; [discriminate|]. injection H as <- <-. apply Reqb_false in E0.
  eexists. split; [reflexivity|].
  assert (ES : rsum n3 = a * rsum ns + b * rsum n2).
  { clear - F L1 L2. revert ns n2 n3 F L1 L2. induction ms as [|m ms IH]; intros [|x ns] [|y n2] n3 F L1 L2; try discriminate; cbn [combine] in F; inversion F as [|u v l l' HV HT]; subst.
    - rewrite !rsum_nil. ring.
    - cbn [length] in L1, L2. rewrite !rsum_cons. rewrite (IH ns n2 l') by (assumption || lia). cbn [fst snd]. ring. }
  rewrite ES. do 2 f_equal. field. exact E0.
Qed.

(** So is the constraint that is used. *)
Lemma used_linear c z1 z2 z3 i1 i2 i3 a b ks v1 : linear_integral simpson \/ i1 <> None -> NoDup ks ->
  inputs_combined a b ks z1 z2 z3 -> given_combined a b i1 i2 i3 ->
  the_ic spl2 simpson wigner c (as_keys z1) i1 = Ok v1 ->
  exists v2 v3, the_ic spl2 simpson wigner c (as_keys z2) i2 = Ok v2 /\
    the_ic spl2 simpson wigner c (as_keys z3) i3 = Ok v3 /\ given_combined a b v1 v2 v3.
Proof.
  intros LI N IN G H. unfold the_ic in *. destruct i1 as [u1|], i2 as [u2|], i3 as [u3|]; try contradiction.
  - injection H as <-. eauto.
  - destruct LI as [LI|LI]; [|congruence]. destruct (f_ic (c_f c)); [|injection H as <-; eauto].
    apply bind_ok in H as ((x & y) & E & H). injection H as <-.
    destruct (ic_linear _ _ _ _ _ _ _ _ _ _ _ _ _ _ LI N IN E) as (v2 & E2 & E3).
    rewrite E2, E3. cbn [bind fst]. do 2 eexists. do 2 (split; [reflexivity|]). reflexivity.
Qed.

(** The convolution in configuration space is linear. *)
Theorem convolve3_linear raw c z1 z2 z3 i1 i2 i3 a b u1 : build_formulae raw = Ok (c_f c) ->
  linear_integral simpson \/ i1 <> None ->
  inputs_combined a b (f_Z (c_f c)) z1 z2 z3 -> given_combined a b i1 i2 i3 ->
  convolve3 spl2 simpson wigner c (as_keys z1) i1 = Ok u1 ->
  exists u2 u3, convolve3 spl2 simpson wigner c (as_keys z2) i2 = Ok u2 /\
    convolve3 spl2 simpson wigner c (as_keys z3) i3 = Ok u3 /\
    forall m, In m (f_poles (c_f c)) -> exists x y, lookup u1 m = Ok x /\ lookup u2 m = Ok y /\
      lookup u3 m = Ok (mcomb a x b y) /\ same_shape x y.
Proof.
  intros BF LI IN G H. destruct (formulae_requirements raw _ BF) as (Np & _ & NZ & _ & Rp & _ & RZ & _).
  unfold convolve3 in *. apply bind_ok in H as (v1 & E1 & H).
  destruct (used_linear _ _ _ _ _ _ _ _ _ _ _ LI NZ IN G E1) as (v2 & v3 & E2 & E3 & GV). rewrite E2, E3. cbn [bind].
  destruct (on_keys_three _
    (fun m => ts <- lookup (f_dict (c_f c)) m ;; ss <- sequence (map (summand3 spl2 c (as_keys z2) v2 m) ts) ;; Ok (msum ss))
    (fun m => ts <- lookup (f_dict (c_f c)) m ;; ss <- sequence (map (summand3 spl2 c (as_keys z3) v3 m) ts) ;; Ok (msum ss))
    (fun m x y z => z = mcomb a x b y /\ same_shape x y)
    (f_poles (c_f c)) u1 Np H) as (u2 & u3 & U2 & U3 & _ & _ & _ & VU).
  { intros m x Hm E. apply bind_ok in E as (ts & Ets & E). apply bind_ok in E as (ss & Ess & E). injection E as <-.
    rewrite Ets. cbn [bind].
    destruct (sequence_three _ (summand3 spl2 c (as_keys z2) v2 m) (summand3 spl2 c (as_keys z3) v3 m)
      (fun _ x y z => exists ro f g, lookup (c_rout c) m = Ok ro /\ x = grid f ro /\ y = grid g ro
         /\ z = grid (fun u v => a * f u v + b * g u v) ro) ts ss Ess) as (s2 & s3 & S2 & S3 & F & L1 & L2).
    { intros t x Ht E. unfold summand3 in E |- *.
      apply bind_ok in E as (rq & A1 & E). apply bind_ok in E as (q & A2 & E). apply bind_ok in E as (fq & A3 & E).
      apply bind_ok in E as (ro & A4 & E). apply bind_ok in E as (fz & A5 & E). injection E as <-.
      rewrite A1, A2. cbn [bind]. rewrite A3, A4. cbn [bind]. destruct (t_Z t) as [i|] eqn:Et.
      - apply bind_ok in A5 as (rz & B1 & A5). apply bind_ok in A5 as (z & B2 & A5).
        assert (B3 : spl2 (c_spline c) rz (real_part z) = Ok fz).
        { destruct (spl2 (c_spline c) rz (real_part z)) as [h|[]]; cbn [index_to_value] in A5; congruence. }
        rewrite raw_as_keys in B2. destruct IN as (K1 & K2 & K3 & V).
        assert (Hk : In i (f_Z (c_f c))) by (rewrite <- K1; apply lookup_some_in in B2; now apply (in_map fst) in B2).
        destruct (V i Hk) as (x1 & x2 & x3 & L1 & L2 & L3 & CO). rewrite B2 in L1. injection L1 as <-.
        destruct (part_alike fst a b z x2 x3 (fst_comb a b) CO) as [SH EM]. change (map (map fst)) with real_part in SH, EM.
        destruct (surfaces _ rz _ _ fz a b B3 SH) as (gz & h & Eg & Eh & Vh). rewrite <- EM in Eh.
        rewrite B1. cbn [bind]. rewrite !raw_as_keys, L2, L3. cbn [bind]. rewrite Eg, Eh. cbn [index_to_value bind].
        do 2 eexists. do 2 (split; [reflexivity|]). exists ro. do 2 eexists. split; [reflexivity|]. do 2 (split; [reflexivity|]).
        unfold grid. apply map_ext. intros u. apply map_ext. intros v. rewrite Vh. ring.
      - destruct v1 as [w1|]; [|discriminate]. injection A5 as <-. destruct v2 as [w2|], v3 as [w3|]; try contradiction.
        cbn [bind]. do 2 eexists. do 2 (split; [reflexivity|]). exists ro. do 2 eexists. split; [reflexivity|]. do 2 (split; [reflexivity|]).
        unfold grid. apply map_ext. intros u. apply map_ext. intros v. cbn [given_combined] in GV. rewrite GV. ring. }
    rewrite S2, S3. cbn [bind]. do 2 eexists. do 2 (split; [reflexivity|]).
    destruct ts as [|t0 ts'].
    { destruct ss; [|discriminate]. destruct s2; [|discriminate]. inversion F; subst. split; reflexivity. }
    assert (GS : exists ro h1 h2, lookup (c_rout c) m = Ok ro /\ length h1 = length (t0 :: ts') /\ length h2 = length (t0 :: ts') /\
        ss = map (fun h => grid h ro) h1 /\ s2 = map (fun h => grid h ro) h2 /\
        s3 = map (fun h => grid h ro) (map (fun p u v => a * fst p u v + b * snd p u v) (combine h1 h2))).
    { assert (RO : exists ro, lookup (c_rout c) m = Ok ro).
      { destruct ss as [|x1 ss]; [discriminate|]. destruct s2 as [|x2 s2]; [discriminate|]. cbn [combine] in F.
        inversion F as [|? ? ? ? (ro & _ & _ & E & _) _]; subst. eauto. }
      destruct RO as [ro RO]. exists ro. clear - F L1 L2 RO. revert ss s2 s3 F L1 L2.
      induction (t0 :: ts') as [|t ts IH]; intros [|x1 ss] [|x2 s2] s3 F L1 L2; try discriminate.
      - inversion F. exists [], []. repeat split; auto.
      - cbn [combine] in F. inversion F as [|? z ? l' (ro' & f & g & E & E1 & E2 & E3) F']; subst. cbn [fst snd] in E1, E2.
        rewrite RO in E. injection E as <-. cbn [length] in L1, L2.
        destruct (IH ss s2 l' F' ltac:(lia) ltac:(lia)) as (h1 & h2 & _ & N1 & N2 & -> & -> & ->).
        exists (f :: h1), (g :: h2). cbn [length map combine fst snd]. rewrite N1, N2, E1, E2. repeat split; auto. }
    destruct GS as (ro & h1 & h2 & RO & N1 & N2 & -> & -> & ->).
    assert (M : forall h : list (R -> R -> R), h <> [] -> msum (map (fun h => grid h ro) h) = grid (fun u v => rsum (map (fun f => f u v) h)) ro).
    { intros h NE. now apply msum_grid. }
    rewrite !M by (first [intros ->; discriminate | destruct h1; [discriminate|]; destruct h2; discriminate]).
    split.
    - rewrite grid_comb. unfold grid. apply map_ext. intros u. apply map_ext. intros v.
      rewrite map_map. clear - N1 N2. revert h1 h2 N1 N2. generalize (length (t0 :: ts')).
      induction n as [|n IH]; intros [|f h1] [|g h2] N1 N2; try discriminate; cbn [combine map fst snd].
      + rewrite rsum_nil. ring.
      + cbn [length] in N1, N2. rewrite !rsum_cons, (IH h1 h2) by lia. ring.
    - apply grid_shape. }
  exists u2, u3. split; [exact U2|]. split; [exact U3|]. intros m Hm.
  destruct (VU m Hm) as (x & y & z & A1 & A2 & A3 & -> & A4). exists x, y. auto.
Qed.

(* ------------------------------------------------------------------ *)
(* Fourier space                                                       *)

Definition model := list (mlike * samples (list (list C))).

(** Three models of the same multipoles, the third combined from the others. *)
Definition entry_combined (a b : R) (e1 e2 e3 : mlike * samples (list (list C))) : Prop :=
  fst e2 = fst e1 /\ fst e3 = fst e1 /\
  an_array (fst (snd e1)) /\ an_array (fst (snd e2)) /\ an_array (fst (snd e3)) /\
  exists n, combined a b n (snd (snd e1)) (snd (snd e2)) (snd (snd e3)).
Definition models_combined (a b : R) : model -> model -> model -> Prop := three (entry_combined a b).

Lemma combined_lookup a b (B1 B2 B3 : model) z e1 : models_combined a b B1 B2 B3 -> raw_lookup B1 z = Ok e1 ->
  exists e2 e3, raw_lookup B2 z = Ok e2 /\ raw_lookup B3 z = Ok e3 /\ an_array (fst e1) /\ an_array (fst e2) /\ an_array (fst e3) /\
    exists n, combined a b n (snd e1) (snd e2) (snd e3).
Proof.
  induction 1 as [|[k1 s1] [k2 s2] [k3 s3] B1 B2 B3 (E2 & E3 & A1 & A2 & A3 & HC) _ IH]; [discriminate|].
  cbn [fst snd] in *. subst k2 k3. cbn [raw_lookup]. destruct (samekey k1 z); [|exact IH].
  intros H. injection H as <-. exists s2, s3. auto 8.
Qed.

Lemma reinterpolate_three a b w B1 B2 B3 C1 : w_orig w <> None -> models_combined a b B1 B2 B3 ->
  reinterpolate spl2 w B1 = Ok C1 ->
  exists C2 C3, reinterpolate spl2 w B2 = Ok C2 /\ reinterpolate spl2 w B3 = Ok C3 /\ models_combined a b C1 C2 C3.
Proof.
  intros NO HM H. unfold reinterpolate in *. destruct (w_orig w) as [o|]; [|congruence]. clear NO.
  revert C1 H. induction HM as [|[k1 [q1 s1]] [k2 [q2 s2]] [k3 [q3 s3]] B1 B2 B3 (E2 & E3 & A1 & A2 & A3 & n & HC) _ IH]; intros C1 H.
  - injection H as <-. exists [], []. do 2 (split; [reflexivity|]). constructor.
  - cbn [map sequence fst snd] in H. cbn [fst snd] in *. subst k2 k3. apply bind_ok in H as (e1 & E1 & H). apply bind_ok in H as (C1' & EC & H). injection H as <-.
    apply bind_ok in E1 as (z & Ez & E1). apply bind_ok in E1 as (x & Ex & E1). apply bind_ok in E1 as (f & Ef & E1).
    apply bind_ok in E1 as (y & Ey & E1). injection E1 as <-.
    destruct (IH C1' EC) as (C2 & C3 & EC2 & EC3 & HM).
    destruct (part_comb fst a b n _ _ _ (fst_comb a b) HC) as [SH EM]. change (map (map fst)) with real_part in SH, EM.
    destruct (surfaces _ x _ _ f a b Ef SH) as (gz & h & Eg & Eh & Vh). rewrite <- EM in Eh.
    cbn [map sequence fst snd]. rewrite Ez. cbn [bind]. rewrite Ex. cbn [bind]. rewrite Eg, Eh. cbn [bind]. rewrite Ey. cbn [bind].
    rewrite EC2, EC3. cbn [bind]. do 2 eexists. do 2 (split; [reflexivity|]).
    assert (EH : grid h y = grid (fun u v => a * f u v + b * gz u v) y).
    { unfold grid. apply map_ext. intros u. apply map_ext. intros v. apply Vh. }
    constructor; [|exact HM]. unfold entry_combined. cbn [fst snd]. do 2 (split; [reflexivity|]).
    do 3 (split; [now left|]). exists (length y). rewrite EH. apply grid_combined.
Qed.

Lemma read_ok k x c at_ fr fi : spl2 k x (map (map fst) c) = Ok fr -> spl2 k x (map (map snd) c) = Ok fi ->
  read_out2 spl2 k x c at_ = Ok (map (fun r => map (fun r' => (fr r r', fi r r')) at_) at_).
Proof. intros E1 E2. unfold read_out2. now rewrite E1, E2. Qed.

(** Without extrapolation, and with padding, constant or linear extrapolation,
    the convolution of bispectra is linear in the samples (and whether it goes
    through does not depend on their values). *)
Theorem bispec_linear g raw f ws wm k_in k_out rc p s w a b B1 B2 B3 i1 i2 i3 out1 :
  build_formulae raw = Ok f -> bispec_init g f ws wm k_in k_out rc p s = Ok w -> linear_extrap (p_extrap p) ->
  linear_integral simpson \/ i1 <> None -> given_combined a b i1 i2 i3 ->
  models_combined a b B1 B2 B3 ->
  bispec_convolve spl2 simpson wigner w B1 i1 = Ok out1 ->
  exists out2 out3, bispec_convolve spl2 simpson wigner w B2 i2 = Ok out2 /\ bispec_convolve spl2 simpson wigner w B3 i3 = Ok out3 /\
    map fst out1 = f_poles f /\ map fst out2 = f_poles f /\ map fst out3 = f_poles f /\
    forall m, In m (f_poles f) -> exists x y z, lookup out1 m = Ok x /\ lookup out2 m = Ok y /\ lookup out3 m = Ok z /\
      combined a b (length (w_kout w)) x y z.
Proof.
  intros BF W EX LI GC HM H. unfold bispec_init in W. apply bind_ok in W as ((rQ & Q) & BI & W).
  apply bind_ok in W as (ki & _ & W). apply bind_ok in W as (bad & _ & W). apply bind_ok in W as (ki' & _ & W). cbn [fst snd] in W.
  destruct (fourier_init_inv _ _ _ _ _ _ _ _ _ _ _ _ _ _ BF BI W) as (Ef & _ & _ & _ & Eo & Ek & _ & _ & BK & FK).
  destruct (formulae_requirements raw f BF) as (Np & _ & NZ & _).
  unfold bispec_convolve in *. apply bind_ok in H as (u1 & EU & H).
  unfold zeta_conv in *. apply bind_ok in EU as (C1 & EC & EU).
  assert (RI : exists C2 C3, reinterpolate spl2 w B2 = Ok C2 /\ reinterpolate spl2 w B3 = Ok C3 /\ models_combined a b C1 C2 C3).
  { destruct (w_orig w) as [o|] eqn:EO; [apply reinterpolate_three with B1; congruence|].
    unfold reinterpolate in *. rewrite EO in *. injection EC as <-. exists B2, B3. auto. }
  destruct RI as (C2 & C3 & EC2 & EC3 & HC). rewrite EC2, EC3. cbn [bind].
  apply bind_ok in EU as (z1 & EZ & EU). unfold to_zeta in *. rewrite Ef in EZ.
  destruct (on_keys_three _
     (fun z => t <- lookup (w_back w) z ;; x <- raw_lookup C2 (ZPole z) ;; yb <- snd (d_multipoles t (DNum (-1)) (fst x) (snd x)) ;; Ok (snd yb))
     (fun z => t <- lookup (w_back w) z ;; x <- raw_lookup C3 (ZPole z) ;; yb <- snd (d_multipoles t (DNum (-1)) (fst x) (snd x)) ;; Ok (snd yb))
     (fun z c1 c2 c3 => alike a b c1 c2 c3) (f_Z f) z1 NZ EZ) as (z2 & z3 & EZ2 & EZ3 & K1 & K2 & K3 & VZ).
  { intros z c Hz E. destruct (BK z Hz) as (x & t & Lx & Ht & Lt & _). rewrite Lt in E |- *. cbn [bind] in E |- *.
    apply bind_ok in E as ((kk & bb) & EA & E). destruct (combined_lookup a b C1 C2 C3 _ _ HC EA) as (e2 & e3 & L2 & L3 & A1 & A2 & A3 & n & CO).
    rewrite L2, L3. cbn [bind fst snd] in *.
    unfold new_double in Ht. apply bind_ok in Ht as (l0 & _ & Ht). apply bind_ok in Ht as (l1 & _ & Ht).
    pose proof (double_three _ _ _ _ _ _ _ _ _ _ (DNum (-1)) kk (fst e2) (fst e3) a b _ _ _ Ht EX A1 A2 A3 (combined_alike _ _ _ _ _ _ CO)) as D.
    apply bind_ok in E as (y1 & D1 & E). injection E as <-. rewrite D1 in D.
    destruct (snd (d_multipoles t (DNum (-1)) (fst e2) (snd e2))) as [y2|]; [|contradiction].
    destruct (snd (d_multipoles t (DNum (-1)) (fst e3) (snd e3))) as [y3|]; [|contradiction].
    destruct D as (_ & _ & D). cbn [bind]. eauto. }
  rewrite Ef, EZ2, EZ3. cbn [bind].
  assert (BF' : build_formulae raw = Ok (c_f (w_conv w))) by now rewrite Ef.
  destruct (convolve3_linear raw (w_conv w) z1 z2 z3 i1 i2 i3 a b u1 BF' LI) as (u2 & u3 & EU2 & EU3 & VU); [|assumption|exact EU|].
  { rewrite Ef. do 3 (split; [assumption|]). intros k Hk. destruct (VZ k Hk) as (x & y & z & L1 & L2 & L3 & CO). exists x, y, z. auto. }
  change (@as_keys WinConvModel.cmatrix) with (@as_keys (list (list C))) in EU2, EU3.
  rewrite EU2, EU3. cbn [bind]. rewrite Ef in H, VU.
  destruct (on_keys_three _
     (fun m => t <- lookup (w_forth w) m ;; x <- lookup u2 m ;; kp <- snd (d_multipoles t (DNum 1) FloatArr (map (map RtoC) x)) ;; read_out2 spl2 (snd (w_orders w)) (d_post t) (snd kp) (w_kout w))
     (fun m => t <- lookup (w_forth w) m ;; x <- lookup u3 m ;; kp <- snd (d_multipoles t (DNum 1) FloatArr (map (map RtoC) x)) ;; read_out2 spl2 (snd (w_orders w)) (d_post t) (snd kp) (w_kout w))
     (fun m x y z => combined a b (length (w_kout w)) x y z) (f_poles f) out1 Np H) as (o2 & o3 & EO2 & EO3 & KO1 & KO2 & KO3 & VO).
  { intros m v Hm E. destruct (FK m Hm) as (r & t & Lr & Ht & Lt & _). rewrite Lt in E |- *. cbn [bind] in E |- *.
    destruct (VU m Hm) as (x & y & Lx & Ly & Lz & SX). rewrite Lx in E. rewrite Ly, Lz. cbn [bind] in *.
    apply bind_ok in E as (kp & EK & E).
    unfold new_double in Ht. apply bind_ok in Ht as (l0 & _ & Ht). apply bind_ok in Ht as (l1 & _ & Ht).
    pose proof (double_three _ _ _ _ _ _ _ _ _ _ (DNum 1) FloatArr FloatArr FloatArr a b _ _ _ Ht EX (or_introl eq_refl) (or_introl eq_refl) (or_introl eq_refl) (shape_alike a b x y SX)) as D.
    rewrite EK in D.
    destruct (snd (d_multipoles t (DNum 1) FloatArr (map (map RtoC) y))) as [kp2|]; [|contradiction].
    destruct (snd (d_multipoles t (DNum 1) FloatArr (map (map RtoC) (mcomb a x b y)))) as [kp3|]; [|contradiction].
    destruct D as (_ & _ & CC). cbn [bind].
    unfold read_out2 in E. apply bind_ok in E as (fr & Efr & E). apply bind_ok in E as (fi & Efi & E). injection E as <-.
    destruct (part_alike fst a b _ _ _ (fst_comb a b) CC) as [SH EM].
    destruct (surfaces _ _ _ _ _ a b Efr SH) as (gr & hr & Egr & Ehr & Vr).
    destruct (part_alike snd a b _ _ _ (snd_comb a b) CC) as [SH' EM'].
    destruct (surfaces _ _ _ _ _ a b Efi SH') as (gi & hi & Egi & Ehi & Vi).
    rewrite (read_ok _ _ (snd kp2) _ gr gi Egr Egi).
    rewrite (read_ok _ _ (snd kp3) _ hr hi (eq_trans (f_equal (spl2 _ _) EM) Ehr) (eq_trans (f_equal (spl2 _ _) EM') Ehi)).
    do 2 eexists. do 2 (split; [reflexivity|]).
    destruct (grid_square (fun u v => (fr u v, fi u v)) (w_kout w)) as [S1 V1].
    destruct (grid_square (fun u v => (gr u v, gi u v)) (w_kout w)) as [S2 V2].
    destruct (grid_square (fun u v => (hr u v, hi u v)) (w_kout w)) as [S3 V3].
    refine (conj S1 (conj S2 (conj S3 _))). intros i j Hi Hj. rewrite V1, V2, V3 by assumption. rewrite Vr, Vi.
    unfold Cplus, Cmult, RtoC. cbn [fst snd]. f_equal; ring. }
  exists o2, o3. auto 10.
Qed.
End Linear.

Print Assumptions bispec_linear.
Print Assumptions convolve3_linear.
Print Assumptions double_linear.
Print Assumptions ic_linear.
