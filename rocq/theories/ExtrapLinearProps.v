(* Transforms of three sets of samples, the third combined from the others:
   without extrapolation, and with padding, constant or linear extrapolation,
   all three fail alike or their results are combined in the same way (C120). *)
From Coq Require Import String.
From Coq Require Import Reals ZArith List Lia Lra Bool.
From Coquelicot Require Import Complex.
From Verif Require Import Base ArrayModel ArrayProofs Array2dModel OscilModel Dft
  FftlogModel FftlogProofs FftlogProps TransformModel TransformProps.
Import ListNotations.
Local Open Scope R_scope.

(* ------------------------------------------------------------------ *)
(* Vocabulary                                                          *)

Inductive three {A} (P : A -> A -> A -> Prop) : list A -> list A -> list A -> Prop :=
| three_nil : three P [] [] []
| three_cons x y z l1 l2 l3 : P x y z -> three P l1 l2 l3 -> three P (x :: l1) (y :: l2) (z :: l3).

(** Three runs: the same error, or results related to each other. *)
Definition res3 {A} (P : A -> A -> A -> Prop) (r1 r2 r3 : res A) : Prop :=
  match r1, r2, r3 with
  | Ok x, Ok y, Ok z => P x y z
  | Err e, Err e', Err e'' => e' = e /\ e'' = e
  | _, _, _ => False
  end.

(** The third number is [a] times the first plus [b] times the second. *)
Definition rcomb (a b x y z : R) : Prop := z = a * x + b * y.
Definition ccomb (a b : R) (x y z : C) : Prop := z = (RtoC a * x + RtoC b * y)%C.

(** Arrays of complex numbers combined entry by entry. *)
Definition alike (a b : R) : cmatrix -> cmatrix -> cmatrix -> Prop := three (three (ccomb a b)).

(** The extrapolations that are linear: none, zeros, constant, linear. *)
Definition linear_extrap (e : Z) : Prop := (0 <= e <= 3)%Z.

(* ------------------------------------------------------------------ *)
(* Lists and results                                                   *)

Lemma bind3 {A B} (P : A -> A -> A -> Prop) (Q : B -> B -> B -> Prop) r1 r2 r3 f g h :
  res3 P r1 r2 r3 -> (forall x y z, P x y z -> res3 Q (f x) (g y) (h z)) ->
  res3 Q (bind r1 f) (bind r2 g) (bind r3 h).
Proof.
  destruct r1 as [x|e], r2 as [y|e'], r3 as [z|e'']; cbn [res3 bind]; try contradiction; intros H K; [now apply K|exact H].
Qed.

Lemma same3 {A} (P : A -> A -> A -> Prop) (r : res A) : (forall x, P x x x) -> res3 P r r r.
Proof. destruct r; cbn; auto. Qed.

Section Lists.
Context {A : Type} (P : A -> A -> A -> Prop).

Lemma three_length l1 l2 l3 : three P l1 l2 l3 -> length l2 = length l1 /\ length l3 = length l1.
Proof. induction 1 as [|x y z l1 l2 l3 H _ [E F]]; cbn [length]; lia. Qed.

Lemma three_nth l1 l2 l3 d : three P l1 l2 l3 -> P d d d -> forall i, P (nth i l1 d) (nth i l2 d) (nth i l3 d).
Proof. intros H D. induction H as [|x y z l1 l2 l3 H _ IH]; intros [|i]; cbn [nth]; auto. Qed.

Lemma three_app l1 l2 l3 k1 k2 k3 : three P l1 l2 l3 -> three P k1 k2 k3 -> three P (l1 ++ k1) (l2 ++ k2) (l3 ++ k3).
Proof. intros H K. induction H; cbn [app]; [exact K|]. now constructor. Qed.

Lemma three_repeat x y z n : P x y z -> three P (repeat x n) (repeat y n) (repeat z n).
Proof. intros H. induction n; cbn [repeat]; constructor; auto. Qed.

Lemma three_firstn l1 l2 l3 n : three P l1 l2 l3 -> three P (firstn n l1) (firstn n l2) (firstn n l3).
Proof. intros H. revert n. induction H; intros [|n]; cbn [firstn]; constructor; auto. Qed.

Lemma three_skipn l1 l2 l3 n : three P l1 l2 l3 -> three P (skipn n l1) (skipn n l2) (skipn n l3).
Proof. intros H. revert n. induction H; intros [|n]; cbn [skipn]; try constructor; auto. Qed.

Lemma three_table {X} (f g h : X -> A) l : (forall i, In i l -> P (f i) (g i) (h i)) ->
  three P (map f l) (map g l) (map h l).
Proof.
  induction l as [|i l IH]; intros H; cbn [map]; constructor; [apply H; now left|]. apply IH. intros j Hj. apply H. now right.
Qed.
End Lists.

Lemma three_map {A B} (P : A -> A -> A -> Prop) (Q : B -> B -> B -> Prop) f g h l1 l2 l3 :
  three P l1 l2 l3 -> (forall x y z, P x y z -> Q (f x) (g y) (h z)) -> three Q (map f l1) (map g l2) (map h l3).
Proof. intros H K. induction H; cbn [map]; constructor; auto. Qed.

Section Comb.
Variables a b : R.
Notation rc := (rcomb a b).
Notation cc := (ccomb a b).

Lemma rc0 : rc 0 0 0.
Proof. unfold rcomb. ring. Qed.
Lemma cc0 : cc (RtoC 0) (RtoC 0) (RtoC 0).
Proof. unfold ccomb. ring. Qed.
Lemma cc_mult x y z u : cc x y z -> cc (x * u)%C (y * u)%C (z * u)%C.
Proof. unfold ccomb. intros ->. ring. Qed.
Lemma cc_fst x y z : cc x y z -> rc (fst x) (fst y) (fst z).
Proof. unfold ccomb, rcomb. intros ->. unfold Cplus, Cmult, RtoC. cbn [fst snd]. ring. Qed.
Lemma cc_real x y z : rc x y z -> cc (RtoC x) (RtoC y) (RtoC z).
Proof. unfold ccomb, rcomb. intros ->. unfold Cplus, Cmult, RtoC. cbn [fst snd]. f_equal; ring. Qed.
Lemma rc_line x y z x' y' z' k : rc x y z -> rc x' y' z' -> rc (x + (x' - x) * k) (y + (y' - y) * k) (z + (z' - z) * k).
Proof. unfold rcomb. intros -> ->. ring. Qed.

Lemma three_fst l1 l2 l3 : three cc l1 l2 l3 -> three rc (map fst l1) (map fst l2) (map fst l3).
Proof. intros H. apply (three_map cc); [exact H|exact cc_fst]. Qed.
Lemma three_real l1 l2 l3 : three rc l1 l2 l3 -> three cc (map RtoC l1) (map RtoC l2) (map RtoC l3).
Proof. intros H. apply (three_map rc); [exact H|exact cc_real]. Qed.

(** Reading entries of three related arrays. *)
Lemma rc_nth l1 l2 l3 i : three rc l1 l2 l3 -> rc (nth i l1 0) (nth i l2 0) (nth i l3 0).
Proof. intros H. now apply three_nth; [|exact rc0]. Qed.
Lemma cc_nth l1 l2 l3 i : three cc l1 l2 l3 -> cc (nth i l1 (RtoC 0)) (nth i l2 (RtoC 0)) (nth i l3 (RtoC 0)).
Proof. intros H. now apply three_nth; [|exact cc0]. Qed.

Lemma rc_at l1 l2 l3 : three rc l1 l2 l3 ->
  rc (at0 l1) (at0 l2) (at0 l3) /\ rc (at1 l1) (at1 l2) (at1 l3) /\
  rc (atm1 l1) (atm1 l2) (atm1 l3) /\ rc (atm2 l1) (atm2 l2) (atm2 l3).
Proof.
  intros H. destruct (three_length _ _ _ _ H) as [E F]. unfold at0, at1, atm1, atm2. rewrite E, F.
  auto using rc_nth.
Qed.

(* ------------------------------------------------------------------ *)
(* One dimension                                                       *)

Lemma check_three l1 l2 l3 : three rc l1 l2 l3 ->
  res3 (three rc) (check_1d_array false false false false l1) (check_1d_array false false false false l2)
    (check_1d_array false false false false l3).
Proof.
  intros H. destruct (three_length _ _ _ _ H) as [E F]. unfold check_1d_array. rewrite E, F.
  destruct (length l1 <? 2)%nat; cbn; auto.
Qed.

Lemma full_three n x y z : rc x y z -> res3 (three rc) (np_full n x) (np_full n y) (np_full n z).
Proof. intros H. unfold np_full. destruct (n <? 0)%Z; cbn [res3]; [auto|]. now apply three_repeat. Qed.

Lemma pad_three l1 l2 l3 n x y z x' y' z' : three rc l1 l2 l3 -> rc x y z -> rc x' y' z' ->
  res3 (three rc) (extrap_pad l1 n x x') (extrap_pad l2 n y y') (extrap_pad l3 n z z').
Proof.
  intros H X X'. unfold extrap_pad. eapply bind3; [now apply check_three|]. intros u1 u2 u3 U.
  eapply bind3; [now apply full_three|]. intros v1 v2 v3 V. eapply bind3; [now apply full_three|]. intros w1 w2 w3 W.
  cbn [res3]. now repeat apply three_app.
Qed.

Lemma lin_three l1 l2 l3 n : three rc l1 l2 l3 ->
  res3 (three rc) (extrap_lin l1 n) (extrap_lin l2 n) (extrap_lin l3 n).
Proof.
  intros H. unfold extrap_lin. eapply bind3; [now apply check_three|]. intros u1 u2 u3 U.
  destruct (rc_at _ _ _ U) as (U0 & U1 & U2 & U3). cbn [res3].
  apply three_app; [|apply three_app; [exact U|]]; apply three_table; intros k _; unfold rcomb in *; subst;
    rewrite ?U0, ?U1, ?U2, ?U3; ring.
Qed.

Lemma perform_three t l1 l2 l3 : linear_extrap (s_extrap t) -> three rc l1 l2 l3 ->
  res3 (three rc) (perform_extrap t l1) (perform_extrap t l2) (perform_extrap t l3).
Proof.
  intros E H. unfold perform_extrap. unfold linear_extrap in E.
  destruct (Z.eqb_spec (s_extrap t) 1); [apply pad_three; auto using rc0|].
  destruct (Z.eqb_spec (s_extrap t) 2).
  { destruct (rc_at _ _ _ H) as (H0 & _ & H2 & _).
    pose proof H as K. inversion K; subst; [cbn; auto|]. now apply pad_three. }
  destruct (Z.eqb_spec (s_extrap t) 3); [now apply lin_three|].
  destruct (Z.eqb_spec (s_extrap t) 4); [lia|]. destruct (Z.eqb_spec (s_extrap t) 5); [lia|]. exact H.
Qed.

Lemma weigh_three w l1 l2 l3 : three cc l1 l2 l3 -> res3 (three cc) (weigh w l1) (weigh w l2) (weigh w l3).
Proof.
  intros H. unfold weigh. destruct (existsb _ w); cbn [res3]; [auto|].
  apply three_table. intros j _. apply cc_mult. now apply cc_nth.
Qed.

Lemma imul_three k1 k2 k3 w l1 l2 l3 : an_array k1 -> an_array k2 -> an_array k3 -> three cc l1 l2 l3 ->
  res3 (three cc) (snd (imul k1 w l1)) (snd (imul k2 w l2)) (snd (imul k3 w l3)).
Proof.
  intros K1 K2 K3 H. destruct (three_length _ _ _ _ H) as [E F].
  assert (G : forall k l, an_array k -> length l = length l1 ->
     snd (imul k w l) = if (length l1 =? length w)%nat then weigh w l else Err ValueError).
  { intros k l [-> | ->] L; cbn [imul]; rewrite L; now destruct (length l1 =? length w)%nat. }
  rewrite !G by assumption || reflexivity. destruct (length l1 =? length w)%nat; [now apply weigh_three|cbn; auto].
Qed.

Lemma total_three n f g h : (forall i, cc (f i) (g i) (h i)) -> cc (Dft.total n f) (Dft.total n g) (Dft.total n h).
Proof.
  intros H. unfold ccomb. rewrite <- !total_scal, <- total_plus. apply total_ext. intros i _. apply H.
Qed.

Lemma dft_three l1 l2 l3 : three cc l1 l2 l3 -> three cc (dft l1) (dft l2) (dft l3).
Proof.
  intros H. destruct (three_length _ _ _ _ H) as [E F]. unfold dft. rewrite E, F.
  apply three_table. intros m _. apply total_three. intros i. apply cc_mult. now apply cc_nth.
Qed.

Lemma convolve_three u l1 l2 l3 : three cc l1 l2 l3 -> three cc (convolve u l1) (convolve u l2) (convolve u l3).
Proof.
  intros H. unfold convolve. apply three_table. intros m _.
  unfold Cdiv. apply cc_mult, cc_mult. now apply cc_nth.
Qed.

Lemma hankel_three h l1 l2 l3 : extrap h = 0%Z -> three cc l1 l2 l3 ->
  res3 (fun x y z => fst y = fst x /\ fst z = fst x /\ three cc (snd x) (snd y) (snd z))
    (py_hankel_transform h l1) (py_hankel_transform h l2) (py_hankel_transform h l3).
Proof.
  intros X H. destruct (three_length _ _ _ _ H) as [E F]. unfold py_hankel_transform.
  apply (bind3 (three cc)).
  - assert (B : res3 (three cc) (biased_transform h l1) (biased_transform h l2) (biased_transform h l3)).
    { unfold biased_transform. destruct (_ || _ || _); [cbn; auto|]. apply (bind3 (three cc)).
      - unfold prepare. rewrite E, F, X. destruct (length l1 <? nsamp h)%nat; [cbn; auto|]. cbn [Z.eqb res3].
        now apply three_firstn.
      - intros x y z K. cbn [res3]. cbv zeta. apply three_table. intros j _. apply cc_nth.
        apply dft_three, convolve_three, dft_three, K. }
    revert B. destruct (biased_transform h l1) as [|[]], (biased_transform h l2) as [|[]], (biased_transform h l3) as [|[]]; cbn; auto;
      intros [A B]; try discriminate A; try discriminate B; auto.
  - intros x y z K. cbn [res3 fst snd]. split; [reflexivity|]. split; [reflexivity|]. rewrite E, F.
    apply three_app; [exact K|]. apply three_repeat, cc0.
Qed.

Lemma cut_three {A} (P : A -> A -> A -> Prop) l1 l2 l3 lo hi : three P l1 l2 l3 -> three P (cut l1 lo hi) (cut l2 lo hi) (cut l3 lo hi).
Proof.
  intros H. destruct (three_length _ _ _ _ H) as [E F]. unfold cut. rewrite E, F. now apply three_firstn, three_skipn.
Qed.

Lemma slice_three {A} (P : A -> A -> A -> Prop) l1 l2 l3 n : three P l1 l2 l3 ->
  three P (post_slice n l1) (post_slice n l2) (post_slice n l3).
Proof. intros H. unfold post_slice. destruct (n =? 0)%Z; [exact H|now apply cut_three]. Qed.

Lemma finish_three t l1 l2 l3 : extrap (s_fbht t) = 0%Z -> three cc l1 l2 l3 ->
  res3 (fun x y z => fst y = fst x /\ fst z = fst x /\ three cc (snd x) (snd y) (snd z))
    (finish t l1) (finish t l2) (finish t l3).
Proof.
  intros X H. unfold finish. eapply bind3; [now apply hankel_three|]. cbv beta. intros x y z (A & B & K).
  cbv zeta. cbn [res3 fst snd]. rewrite A, B. split; [reflexivity|]. split; [reflexivity|].
  pose proof (slice_three _ _ _ _ (s_next t) K) as S. destruct (three_length _ _ _ _ S) as [E F]. rewrite E, F.
  apply three_table. intros j _. apply cc_mult. now apply cc_nth.
Qed.

(** One transform. *)
Lemma transform_three t k1 k2 k3 l1 l2 l3 : linear_extrap (s_extrap t) -> extrap (s_fbht t) = 0%Z ->
  an_array k1 -> an_array k2 -> an_array k3 -> three cc l1 l2 l3 ->
  res3 (fun x y z => fst y = fst x /\ fst z = fst x /\ three cc (snd x) (snd y) (snd z))
    (snd (transform t k1 l1)) (snd (transform t k2 l2)) (snd (transform t k3 l3)).
Proof.
  intros E X K1 K2 K3 H.
  assert (D : res3 (fun x y z => fst y = fst x /\ fst z = fst x /\ three cc (snd x) (snd y) (snd z))
    (p <- snd (imul k1 (s_pre t) l1) ;; finish t p) (p <- snd (imul k2 (s_pre t) l2) ;; finish t p)
    (p <- snd (imul k3 (s_pre t) l3) ;; finish t p)).
  { eapply bind3; [now apply imul_three|]. intros x y z K. now apply finish_three. }
  assert (G : forall k l, snd (let (after, p) := imul k (s_pre t) l in (after, p <- p ;; finish t p))
     = (p <- snd (imul k (s_pre t) l) ;; finish t p)) by (intros k l; now destruct (imul k (s_pre t) l)).
  unfold transform. destruct (s_layer t); [rewrite !G; exact D| |rewrite !G; exact D].
  destruct (s_extrap t =? 0)%Z; [rewrite !G; exact D|]. cbn [snd].
  eapply bind3; [apply perform_three; [exact E|now apply three_fst]|]. intros x y z K.
  assert (KA : forall k, an_array k -> an_array (kind_after t k)) by (intros k [-> | ->]; now left).
  eapply bind3; [apply imul_three; auto; now apply three_real|]. intros x' y' z' K'. now apply finish_three.
Qed.

(* ------------------------------------------------------------------ *)
(* Two dimensions                                                      *)

Lemma rows_three t k1 k2 k3 m1 m2 m3 : linear_extrap (s_extrap t) -> extrap (s_fbht t) = 0%Z ->
  an_array k1 -> an_array k2 -> an_array k3 -> alike a b m1 m2 m3 ->
  res3 (alike a b) (snd (rows t k1 m1)) (snd (rows t k2 m2)) (snd (rows t k3 m3)).
Proof.
  intros E X K1 K2 K3 H. induction H as [|x y z m1 m2 m3 H _ IH]; [constructor|]. cbn [rows].
  pose proof (transform_three t k1 k2 k3 x y z E X K1 K2 K3 H) as T.
  destruct (transform t k1 x) as [a1 r1], (transform t k2 y) as [a2 r2], (transform t k3 z) as [a3 r3]. cbn [snd] in T.
  destruct r1 as [g1|e1], r2 as [g2|e2], r3 as [g3|e3]; cbn [res3] in T; try contradiction; [|exact T].
  destruct T as (_ & _ & T).
  destruct (rows t k1 m1) as [b1 s1], (rows t k2 m2) as [b2 s2], (rows t k3 m3) as [b3 s3]. cbn [snd] in *.
  eapply bind3; [exact IH|]. intros u v w K. cbn [res3]. now constructor.
Qed.

Lemma nth_rows {A} (P : A -> A -> A -> Prop) (m1 m2 m3 : list (list A)) i : three (three P) m1 m2 m3 ->
  three P (nth i m1 []) (nth i m2 []) (nth i m3 []).
Proof. intros H. apply (three_nth (three P)); [exact H|constructor]. Qed.

Lemma ctranspose_three m1 m2 m3 : alike a b m1 m2 m3 -> alike a b (ctranspose m1) (ctranspose m2) (ctranspose m3).
Proof.
  intros H. unfold ctranspose. pose proof (nth_rows _ _ _ _ 0 H) as R0. destruct (three_length _ _ _ _ R0) as [E F]. rewrite E, F.
  apply three_table. intros j _. apply (three_map (three cc)); [exact H|]. intros x y z K. now apply cc_nth.
Qed.

Lemma transpose_three m1 m2 m3 : three (three rc) m1 m2 m3 -> three (three rc) (transpose m1) (transpose m2) (transpose m3).
Proof.
  intros H. unfold transpose, ncols. pose proof (nth_rows _ _ _ _ 0 H) as R0. destruct (three_length _ _ _ _ R0) as [E F]. rewrite E, F.
  apply three_table. intros j _. apply (three_map (three rc)); [exact H|]. intros x y z K. now apply rc_nth.
Qed.

Lemma row_lin_three n m1 m2 m3 : three (three rc) m1 m2 m3 ->
  three (three rc) (extrap2d_row_lin m1 n) (extrap2d_row_lin m2 n) (extrap2d_row_lin m3 n).
Proof.
  intros H. unfold extrap2d_row_lin. apply (three_map (three rc)); [exact H|]. intros x y z K.
  destruct (rc_at _ _ _ K) as (U0 & U1 & U2 & U3).
  apply three_app; [|apply three_app; [exact K|]]; apply three_table; intros k _; unfold rcomb in *;
    rewrite ?U0, ?U1, ?U2, ?U3; ring.
Qed.

Lemma check2_three m1 m2 m3 : three (three rc) m1 m2 m3 ->
  res3 (fun x y z => x = m1 /\ y = m2 /\ z = m3) (check_2d_array false false m1) (check_2d_array false false m2) (check_2d_array false false m3).
Proof.
  intros H. destruct (three_length _ _ _ _ H) as [E F]. pose proof (nth_rows _ _ _ _ 0 H) as R0.
  destruct (three_length _ _ _ _ R0) as [E' F']. unfold check_2d_array, nrows, ncols. rewrite E, F, E', F'.
  destruct (_ || _)%bool; cbn; auto.
Qed.

Lemma lin2_three m1 m2 m3 n : three (three rc) m1 m2 m3 ->
  res3 (three (three rc)) (extrap2d_lin m1 n) (extrap2d_lin m2 n) (extrap2d_lin m3 n).
Proof.
  intros H. unfold extrap2d_lin. eapply bind3; [now apply check2_three|]. intros x y z (-> & -> & ->).
  destruct (unpack_ext n) as [r c]. cbn [res3]. now apply transpose_three, row_lin_three, transpose_three, row_lin_three.
Qed.

(** Whether padding goes through depends on the shapes alone. *)
Definition pads (m : matrix) (n : Z) (crl cru ccl ccu : list R) : res matrix :=
  if (n <? 0)%Z then Err ValueError else
  let a_l := tile_cols crl (Z.to_nat n) in
  let a_r := tile_cols cru (Z.to_nat n) in
  a_ <- hstack3 a_l m a_r ;;
  let ccl' := nth 0 a_l [] ++ ccl ++ nth 0 a_r [] in
  let ccu' := nth (length a_l - 1) a_l [] ++ ccu ++ nth (length a_r - 1) a_r [] in
  vstack3 (repeat ccl' (Z.to_nat n)) a_ (repeat ccu' (Z.to_nat n)).

Lemma tile_three n l1 l2 l3 : three rc l1 l2 l3 -> three (three rc) (tile_cols l1 n) (tile_cols l2 n) (tile_cols l3 n).
Proof. intros H. unfold tile_cols. apply (three_map rc); [exact H|]. intros x y z K. now apply three_repeat. Qed.

Lemma hstack_three l1 l2 l3 m1 m2 m3 r1 r2 r3 : three (three rc) l1 l2 l3 -> three (three rc) m1 m2 m3 ->
  three (three rc) r1 r2 r3 -> res3 (three (three rc)) (hstack3 l1 m1 r1) (hstack3 l2 m2 r2) (hstack3 l3 m3 r3).
Proof.
  intros L M Q. destruct (three_length _ _ _ _ L) as [E F]. destruct (three_length _ _ _ _ M) as [E' F'].
  destruct (three_length _ _ _ _ Q) as [E'' F'']. unfold hstack3. rewrite E, F, E', F', E'', F''.
  destruct (_ || _)%bool; cbn [res3]; [auto|]. clear E F E' F' E'' F''.
  revert m1 m2 m3 r1 r2 r3 M Q. induction L as [|x y z l1 l2 l3 H _ IH]; intros m1 m2 m3 r1 r2 r3 M Q; [constructor|].
  destruct M as [|x' y' z' m1 m2 m3 H' M]; [constructor|]. destruct Q as [|x'' y'' z'' r1 r2 r3 H'' Q]; [constructor|].
  cbn [combine map fst snd]. constructor; [|now apply IH]. now apply three_app; [|apply three_app].
Qed.

Lemma three_forallb {A} (P : A -> A -> A -> Prop) f g h l1 l2 l3 : three P l1 l2 l3 ->
  (forall x y z, P x y z -> g y = f x /\ h z = f x) -> forallb g l2 = forallb f l1 /\ forallb h l3 = forallb f l1.
Proof.
  intros H K. induction H as [|x y z l1 l2 l3 H _ [E F]]; [auto|]. cbn [forallb]. destruct (K _ _ _ H) as [-> ->].
  now rewrite E, F.
Qed.

Lemma vstack_three l1 l2 l3 m1 m2 m3 r1 r2 r3 : three (three rc) l1 l2 l3 -> three (three rc) m1 m2 m3 ->
  three (three rc) r1 r2 r3 -> res3 (three (three rc)) (vstack3 l1 m1 r1) (vstack3 l2 m2 r2) (vstack3 l3 m3 r3).
Proof.
  intros L M Q. unfold vstack3, ncols.
  pose proof (three_app _ _ _ _ _ _ _ L (three_app _ _ _ _ _ _ _ M Q)) as T.
  destruct (three_length _ _ _ _ (nth_rows _ _ _ _ 0 M)) as [E F]. rewrite E, F.
  set (f := fun row : list R => Nat.eqb (length row) (length (nth 0 m1 []))).
  assert (AB : forallb f (l2 ++ m2 ++ r2) = forallb f (l1 ++ m1 ++ r1) /\ forallb f (l3 ++ m3 ++ r3) = forallb f (l1 ++ m1 ++ r1)).
  { apply (three_forallb (three rc)); [exact T|]. intros x y z K. unfold f. destruct (three_length _ _ _ _ K) as [-> ->]. auto. }
  destruct AB as [A B]. rewrite A, B. destruct (forallb f (l1 ++ m1 ++ r1)); [exact T|cbn; auto].
Qed.

Lemma pads_three n m1 m2 m3 p1 p2 p3 q1 q2 q3 r1 r2 r3 s1 s2 s3 : three (three rc) m1 m2 m3 ->
  three rc p1 p2 p3 -> three rc q1 q2 q3 -> three rc r1 r2 r3 -> three rc s1 s2 s3 ->
  res3 (three (three rc)) (pads m1 n p1 q1 r1 s1) (pads m2 n p2 q2 r2 s2) (pads m3 n p3 q3 r3 s3).
Proof.
  intros M P Q RR S. unfold pads. destruct (n <? 0)%Z; [cbn; auto|]. cbv zeta.
  pose proof (tile_three (Z.to_nat n) _ _ _ P) as TP. pose proof (tile_three (Z.to_nat n) _ _ _ Q) as TQ.
  eapply bind3; [now apply hstack_three|]. intros x y z K.
  destruct (three_length _ _ _ _ TP) as [E F]. destruct (three_length _ _ _ _ TQ) as [E' F']. rewrite E, F, E', F'.
  apply vstack_three; [|exact K|]; apply three_repeat; (apply three_app; [now apply nth_rows|apply three_app; [assumption|now apply nth_rows]]).
Qed.

(** With zeros the corners always agree. *)
Lemma pad_zero m n : extrap2d_pad m (ExtInt n) (PadScalar 0) (PadScalar 0) (PadScalar 0) (PadScalar 0) =
  (m <- check_2d_array false false m ;;
   pads m n (repeat 0 (nrows m)) (repeat 0 (nrows m)) (repeat 0 (ncols m)) (repeat 0 (ncols m))).
Proof.
  unfold extrap2d_pad, check_2d_array, nrows, ncols.
  destruct (Nat.ltb_spec (length m) 2) as [L|L]; [reflexivity|].
  destruct (Nat.ltb_spec (length (nth 0 m [])) 2) as [L'|L']; [reflexivity|]. cbn [orb andb bind pad_values].
  assert (SF : forall k, (2 <= k)%nat -> seq_first (repeat 0 k) = Ok 0) by (intros [|k] H; [lia|reflexivity]).
  assert (SL : forall k, (2 <= k)%nat -> seq_last (repeat 0 k) = Ok 0).
  { intros [|k] H; [lia|]. unfold seq_last. change (repeat 0 (S k)) with (0 :: repeat 0 k) at 1. cbv iota.
    now rewrite nth_repeat. }
  rewrite !SF, !SL by assumption. cbn [bind]. rewrite (proj2 (Reqb_spec 0 0) eq_refl). cbn [negb unpack_ext].
  unfold pads. now destruct (n <? 0)%Z.
Qed.

(** With the outermost samples too, the last row having some. *)
Lemma pad_ends m n : extrap2d_pad m (ExtInt n) (PadSeq (map at0 m)) (PadSeq (map atm1 m))
    (PadSeq (nth 0 m [])) (PadSeq (nth (length m - 1) m [])) =
  (m <- check_2d_array false false m ;;
   match nth (length m - 1) m [] with
   | [] => Err IndexError
   | _ => pads m n (map at0 m) (map atm1 m) (nth 0 m []) (nth (length m - 1) m [])
   end).
Proof.
  unfold extrap2d_pad, check_2d_array, nrows, ncols.
  destruct (Nat.ltb_spec (length m) 2) as [L|L]; [reflexivity|].
  destruct (Nat.ltb_spec (length (nth 0 m [])) 2) as [L'|L']; [reflexivity|]. cbn [orb andb bind pad_values].
  assert (SF : forall l, l <> [] -> seq_first l = Ok (at0 l)) by (intros [|x l] H; [congruence|reflexivity]).
  assert (SL : forall l, l <> [] -> seq_last l = Ok (atm1 l)) by (intros [|x l] H; [congruence|reflexivity]).
  assert (N0 : nth 0 m [] <> []) by (intros E; rewrite E in L'; cbn in L'; lia).
  assert (NM : forall f : list R -> R, map f m <> []) by (intros f E; apply (f_equal (@length R)) in E; rewrite map_length in E; cbn in E; lia).
  assert (M0 : forall f : list R -> R, at0 (map f m) = f (nth 0 m [])).
  { intros f. unfold at0. rewrite (nth_indep _ 0 (f [])) by (rewrite map_length; lia). now rewrite map_nth. }
  assert (ML : forall f : list R -> R, atm1 (map f m) = f (nth (length m - 1) m [])).
  { intros f. unfold atm1. rewrite (nth_indep _ 0 (f [])) by (rewrite map_length; lia). rewrite map_length. now rewrite map_nth. }
  assert (RR : forall x, Reqb x x = true) by (intros x; now apply Reqb_spec).
  rewrite (SF (map at0 m)), (SF (nth 0 m [])) by auto. cbn [bind]. rewrite M0, RR. cbn [negb].
  rewrite (SF (map atm1 m)), (SL (nth 0 m [])) by auto. cbn [bind]. rewrite M0, RR. cbn [negb].
  rewrite (SL (map at0 m)) by auto. cbn [bind]. rewrite ML.
  destruct (nth (length m - 1) m []) as [|x l] eqn:EL; [reflexivity|].
  rewrite (SF (x :: l)), (SL (map atm1 m)), (SL (x :: l)) by (auto; discriminate). cbn [bind]. rewrite ML, !RR. cbn [negb unpack_ext].
  unfold pads. now destruct (n <? 0)%Z.
Qed.

Lemma d_perform_three d m1 m2 m3 : linear_extrap (d_extrap d) -> three (three rc) m1 m2 m3 ->
  res3 (three (three rc)) (d_perform_extrap d m1) (d_perform_extrap d m2) (d_perform_extrap d m3).
Proof.
  intros E H. unfold d_perform_extrap, linear_extrap in *.
  destruct (three_length _ _ _ _ H) as [L1 L2]. destruct (three_length _ _ _ _ (nth_rows _ _ _ _ 0 H)) as [C1 C2].
  destruct (Z.eqb_spec (d_extrap d) 1).
  { rewrite !pad_zero. eapply bind3; [now apply check2_three|]. intros x y z (-> & -> & ->).
    unfold nrows, ncols. rewrite L1, L2, C1, C2. apply pads_three; [exact H|..]; apply three_repeat, rc0. }
  destruct (Z.eqb_spec (d_extrap d) 2).
  { rewrite !pad_ends. eapply bind3; [now apply check2_three|]. intros x y z (-> & -> & ->). rewrite L1, L2.
    pose proof (nth_rows _ _ _ _ (length m1 - 1) H) as RL. 
    assert (G : forall f, (forall x y z, three rc x y z -> rc (f x) (f y) (f z)) -> three rc (map f m1) (map f m2) (map f m3)).
    { intros f Hf. now apply (three_map (three rc)). }
    inversion RL as [A B D|u v w l1 l2 l3 HU HL A B D]; [cbn; auto|].
    rewrite A, B, D. apply pads_three; [exact H|apply G; intros ? ? ? K; apply (rc_at _ _ _ K)|apply G; intros ? ? ? K; apply (rc_at _ _ _ K)|now apply nth_rows|].
    exact RL. }
  destruct (Z.eqb_spec (d_extrap d) 3); [now apply lin2_three|].
  destruct (Z.eqb_spec (d_extrap d) 4); [lia|]. destruct (Z.eqb_spec (d_extrap d) 5); [lia|]. exact H.
Qed.
End Comb.

(* ------------------------------------------------------------------ *)
(* Double transforms                                                   *)

Lemma sbt_native g l n x kr low e ee t : sbt_init g l n x kr low e ee Outer = Ok t ->
  s_extrap t = e /\ extrap (s_fbht t) = 0%Z.
Proof.
  unfold sbt_init. destruct (negb _); [discriminate|]. intros H. apply bind_ok in H as (((na & e') & p) & E & H).
  apply bind_ok in H as (h & Eh & H). injection H as <-. cbn [s_extrap s_fbht]. split; [reflexivity|].
  assert (na = 0%Z) as ->.
  { destruct (e =? 0)%Z; [now injection E|]. destruct (Nat.odd (length x)); [discriminate|].
    apply bind_ok in E as (nt & _ & E). apply bind_ok in E as (q & _ & E). now injection E. }
  unfold py_hankel in Eh. apply bind_ok in Eh as (x' & _ & Eh). apply bind_ok in Eh as (u & _ & Eh).
  unfold translate in Eh. destruct (initialise _ _ _ _ _ _ _ _) as [h'|[]] eqn:I; try discriminate. injection Eh as ->.
  unfold initialise in I. destruct (_ <? 2)%nat; [discriminate|]. destruct (negb _); [discriminate|].
  apply bind_ok in I as (((nt & ex) & pe) & _ & I). apply bind_ok in I as (kr' & _ & I). apply bind_ok in I as (uu & _ & I).
  now injection I as <-.
Qed.

Lemma sequence_all {X A} (f : X -> res A) (Q : A -> Prop) l ts : sequence (map f l) = Ok ts ->
  (forall x t, f x = Ok t -> Q t) -> Forall Q ts.
Proof.
  revert ts. induction l as [|x l IH]; intros ts H K; cbn [map sequence] in H.
  - injection H as <-. constructor.
  - apply bind_ok in H as (t & E & H). apply bind_ok in H as (ts' & E' & H). injection H as <-. constructor; eauto.
Qed.

(** The transforms of an object made with such an extrapolation. *)
Lemma dsbt_linear g ls ns x kr low e ee e2d d : dsbt_init g ls ns x kr low (EInt e) ee e2d = Ok d ->
  linear_extrap e -> d_extrap d = e /\ Forall (fun t => linear_extrap (s_extrap t) /\ extrap (s_fbht t) = 0%Z) (d_t d).
Proof.
  intros H L. unfold dsbt_init in H. destruct (negb _); [discriminate|].
  apply bind_ok in H as (((na & e') & p) & E & H). apply bind_ok in H as (ts & Et & H).
  assert (NA : linear_extrap na).
  { unfold linear_extrap in *. destruct (Z.eqb_spec e 0); [injection E as <- _ _; lia|]. destruct (Nat.odd (length x)); [discriminate|].
    destruct (negb e2d); [injection E as <- _ _; lia|]. apply bind_ok in E as (nt & _ & E). apply bind_ok in E as (q & _ & E).
    injection E as <- _ _. lia. }
  assert (F : Forall (fun t => linear_extrap (s_extrap t) /\ extrap (s_fbht t) = 0%Z) ts).
  { apply (sequence_all _ _ _ _ Et). intros db t Ht. apply sbt_native in Ht as [-> ->]. auto. }
  destruct ts as [|t0 ts]; [discriminate|]. injection H as <-. cbn [d_extrap d_t]. auto.
Qed.

(** The part of a double transform after extrapolation. *)
Definition inner (d : dsbt) (k : kind) (m : cmatrix) : res ((list R * list R) * cmatrix) :=
  match d_t d with
  | t0 :: t1 :: _ =>
    i <- snd (rows t1 k m) ;;
    match i with
    | [] => Err IndexError
    | _ => p <- snd (rows t0 ComplexArr (ctranspose i)) ;;
           Ok ((d_post d, d_post d), map (post_slice (d_next d)) (post_slice (d_next d) (ctranspose p)))
    end
  | _ => Err IndexError
  end.

Lemma transform_inner d k m : an_array k -> snd (d_transform d k m) =
  if d_extrap2d d && negb (d_extrap d =? 0)%Z
  then v <- d_perform_extrap d (map (map fst) m) ;; inner d FloatArr (map (map RtoC) v)
  else inner d k m.
Proof.
  intros K. unfold d_transform, inner. destruct (d_t d) as [|t0 [|t1 ts]].
  - destruct (d_extrap2d d), (d_extrap d =? 0)%Z; try reflexivity; destruct K as [-> | ->]; reflexivity.
  - destruct (d_extrap2d d), (d_extrap d =? 0)%Z; try reflexivity; destruct K as [-> | ->]; reflexivity.
  - assert (G : forall k m, snd (let (after, inter) := rows t1 k m in
        (after, inter <- inter ;;
         match inter with
         | [] => Err IndexError
         | _ => post_T <- snd (rows t0 ComplexArr (ctranspose inter)) ;;
                Ok ((d_post d, d_post d), map (post_slice (d_next d)) (post_slice (d_next d) (ctranspose post_T)))
         end)) =
      (i <- snd (rows t1 k m) ;;
       match i with
       | [] => Err IndexError
       | _ => p <- snd (rows t0 ComplexArr (ctranspose i)) ;;
              Ok ((d_post d, d_post d), map (post_slice (d_next d)) (post_slice (d_next d) (ctranspose p)))
       end)) by (intros k' m'; now destruct (rows t1 k' m')).
    destruct (d_extrap2d d), (d_extrap d =? 0)%Z; cbn [andb negb]; try apply G.
    + destruct K as [-> | ->]; apply G.
    + cbn [snd]. destruct (d_perform_extrap d (map (map fst) m)) as [v|]; [|reflexivity]. cbn [bind]. apply G.
Qed.

(** A double transform with no, zero, constant or linear extrapolation: the
    three calls fail alike, or the third result is combined from the others. *)
Theorem double_three g ls ns x kr low e ee e2d d dir k1 k2 k3 a b m1 m2 m3 :
  dsbt_init g ls ns x kr low (EInt e) ee e2d = Ok d -> linear_extrap e ->
  an_array k1 -> an_array k2 -> an_array k3 -> alike a b m1 m2 m3 ->
  res3 (fun r1 r2 r3 => fst r2 = fst r1 /\ fst r3 = fst r1 /\ alike a b (snd r1) (snd r2) (snd r3))
    (snd (d_multipoles d dir k1 m1)) (snd (d_multipoles d dir k2 m2)) (snd (d_multipoles d dir k3 m3)).
Proof.
  intros D L K1 K2 K3 H. destruct (dsbt_linear _ _ _ _ _ _ _ _ _ _ D L) as [ED F]. clear D.
  unfold d_multipoles. destruct (py_prefactor _ _ _) as [fc|]; [|cbn; auto].
  assert (T : res3 (fun r1 r2 r3 => fst r2 = fst r1 /\ fst r3 = fst r1 /\ alike a b (snd r1) (snd r2) (snd r3))
    (snd (d_transform d k1 m1)) (snd (d_transform d k2 m2)) (snd (d_transform d k3 m3))).
  { rewrite !transform_inner by assumption.
    assert (I : forall k k' k'' n1 n2 n3, an_array k -> an_array k' -> an_array k'' -> alike a b n1 n2 n3 ->
      res3 (fun r1 r2 r3 => fst r2 = fst r1 /\ fst r3 = fst r1 /\ alike a b (snd r1) (snd r2) (snd r3))
        (inner d k n1) (inner d k' n2) (inner d k'' n3)).
    { intros k k' k'' n1 n2 n3 A1 A2 A3 N. unfold inner. destruct (d_t d) as [|t0 [|t1 ts]]; [cbn; auto|cbn; auto|].
      inversion F as [|? ? [E0 X0] F1]; subst. inversion F1 as [|? ? [E1 X1] _]; subst.
      eapply bind3; [apply (rows_three a b t1 k k' k'' _ _ _ E1 X1 A1 A2 A3 N)|]. intros i1 i2 i3 II.
      pose proof (ctranspose_three a b _ _ _ II) as CT.
      destruct II as [|x1 y1 z1 i1 i2 i3 HX HI]; [cbn; auto|].
      eapply bind3; [apply (rows_three a b); [exact E0|exact X0|now right|now right|now right|exact CT]|].
      intros p1 p2 p3 PP. cbn [res3 fst snd]. do 2 (split; [reflexivity|]).
      apply (three_map (three (ccomb a b))); [apply slice_three, ctranspose_three, PP|]. intros; now apply slice_three. }
    destruct (_ && _); [|now apply I].
    eapply bind3.
    + apply (d_perform_three a b); [rewrite ED; exact L|]. apply (three_map (three (ccomb a b))); [exact H|]. apply three_fst.
    + intros x1 x2 x3 X. apply I; try (now left). apply (three_map (three (rcomb a b))); [exact X|]. apply three_real. }
  destruct (d_transform d k1 m1) as [u1 v1], (d_transform d k2 m2) as [u2 v2], (d_transform d k3 m3) as [u3 v3]. cbn [snd] in *.
  eapply bind3; [exact T|]. cbv beta. intros r1 r2 r3 (A1 & A2 & AL). cbn [res3 fst snd]. split; [exact A1|]. split; [exact A2|].
  apply (three_map (three (ccomb a b))); [exact AL|]. intros x1 x2 x3 X. apply (three_map (ccomb a b)); [exact X|].
  intros. now apply cc_mult.
Qed.

(* ------------------------------------------------------------------ *)
(* A case                                                              *)

(** Two by two samples on 1, e, extended by a constant to four by four: all
    transforms are made, and the third is the first plus twice the second. *)
Example double_three_case : exists d y b1 b2 b3,
  dsbt_init step_gsl [0; 0]%Z [0; 0]%Z (pts 1 1 2) 1 true (EInt 2) 2 true = Ok d /\ d_next d = 1%Z /\
  snd (d_multipoles d (DNum 1) FloatArr (map (map RtoC) [[1; 2]; [3; 5]])) = Ok (y, b1) /\
  snd (d_multipoles d (DNum 1) FloatArr (map (map RtoC) [[0; 1]; [1; 1]])) = Ok (y, b2) /\
  snd (d_multipoles d (DNum 1) FloatArr (map (map RtoC) [[1; 4]; [5; 7]])) = Ok (y, b3) /\
  alike 1 2 b1 b2 b3.
Proof.
  destruct outer_case as (t & HS & NX & _). set (x := pts 1 1 2) in *.
  assert (LX : length x = 2%nat) by apply pts_length.
  destruct (sbt_init_outer _ _ _ _ _ _ _ _ _ HS ltac:(lia)) as (_ & _ & _ & _ & _ & nt & p & SZ & N & EL & _).
  rewrite NX in N, EL. rewrite LX in N.
  assert (LP : length p = 4%nat) by (destruct (extrap_loglin_length x 1 p EL) as [L _]; now rewrite L, LX).
  assert (X0 : nth 0 x 0 = 1) by (unfold x; rewrite pts_nth by lia; cbn [INR]; rewrite Rmult_0_l, exp_0; lra).
  assert (X1 : nth 1 x 0 = exp 1) by (unfold x; rewrite pts_nth by lia; cbn [INR]; rewrite !Rmult_1_l; reflexivity).
  pose proof (exp_pos 1) as EP.
  assert (PP : forall r, In r p -> 0 < r).
  { assert (EL' := EL). unfold extrap_loglin in EL'. apply bind_ok in EL' as (x' & HX & EL'). apply check_same in HX. subst x'.
    destruct (_ && _); [discriminate|]. injection EL' as <-. change (arange_down 1) with [1%Z]. change (arange 1 (1 + 1)) with [1%Z].
    unfold at0, at1, atm1, atm2, rpow. rewrite LX. cbn [Nat.sub]. rewrite X0, X1. change (Z.to_nat 1) with 1%nat. rewrite !pow_1.
    intros r [<-|[<-|[<-|[<-|[]]]]]; repeat apply Rmult_lt_0_compat; try apply exp_pos; try lra; apply Rinv_0_lt_compat; lra. }
  assert (H0 : exists t0, sbt_init step_gsl 0 0 p 1 true 0 2 Outer = Ok t0).
  { assert (HS' := HS). unfold sbt_init in HS'. cbn [Z.leb Z.compare Pos.compare Pos.compare_cont andb negb Z.eqb Pos.eqb] in HS'.
    rewrite LX in HS'. rewrite LX in SZ. cbn [Nat.odd Nat.even negb] in HS'. rewrite SZ in HS'. cbn [bind] in HS'.
    rewrite <- N, EL in HS'. cbn [bind] in HS'. apply bind_ok in HS' as (h & HP & _).
    unfold sbt_init. cbn [Z.leb Z.compare andb negb Z.eqb bind]. rewrite HP. cbn [bind]. eauto. }
  destruct H0 as [t0 H0].
  pose proof (dsbt_two_conv _ 0 0 0 0 _ _ _ _ false _ _ H0 H0) as HD'.
  destruct (double_transform _ _ _ _ _ _ _ _ _ _ _ HD' ltac:(lia) PP) as (v0 & v1 & K0 & K1 & V0 & V1 & _ & DT).
  set (d := mk_dsbt [0; 0]%Z 2 true 1 [t0; t0] (post_slice 1 (s_post t0))).
  assert (HD : dsbt_init step_gsl [0; 0]%Z [0; 0]%Z x 1 true (EInt 2) 2 true = Ok d).
  { unfold dsbt_init. cbn [Z.leb Z.compare Pos.compare Pos.compare_cont andb negb Z.eqb Pos.eqb]. rewrite SZ, LX.
    cbn [Nat.odd Nat.even negb bind]. rewrite <- N, EL. cbn [bind combine map sequence fst snd]. rewrite H0. reflexivity. }
  assert (RUN : exists y b1, snd (d_multipoles d (DNum 1) FloatArr (map (map RtoC) [[1; 2]; [3; 5]])) = Ok (y, b1)).
  { unfold d_multipoles. cbn [d d_degrees]. destruct (py_prefactor _ _ _) as [fc|] eqn:F; [|discriminate].
    pose proof (transform_inner d FloatArr (map (map RtoC) [[1; 2]; [3; 5]]) (or_introl eq_refl)) as TI.
    destruct (d_transform d _ _) as [u r]. cbn [snd] in TI |- *. subst r. cbn [d d_extrap2d d_extrap Z.eqb andb negb].
    set (m4 := [[1; 1; 2; 2]; [1; 1; 2; 2]; [3; 3; 5; 5]; [3; 3; 5; 5]]).
    assert (EX : d_perform_extrap d (map (map fst) (map (map RtoC) [[1; 2]; [3; 5]])) = Ok m4).
    { unfold d_perform_extrap, d. cbn [d_extrap d_next Z.eqb Pos.eqb map fst RtoC].
      unfold extrap2d_pad, check_2d_array. cbn. unfold Reqb.
      repeat match goal with |- context [Req_EM_T ?u ?v] => destruct (Req_EM_T u v); [|lra] end. reflexivity. }
    rewrite EX. cbn [bind]. destruct (DT FloatArr (map (map RtoC) m4) (or_introl eq_refl)) as (b & EB & _).
    { rewrite LP. split; [reflexivity|]. intros r Hr. repeat (destruct Hr as [<-|Hr]; [reflexivity|]). contradiction. }
    pose proof (transform_inner (mk_dsbt [0; 0]%Z 0 false 0 [t0; t0] (s_post t0)) FloatArr (map (map RtoC) m4) (or_introl eq_refl)) as TI.
    rewrite EB in TI. cbn [snd d_extrap2d andb] in TI. unfold inner in *. cbn [d d_t] in *.
    destruct (snd (rows t0 FloatArr _)) as [i|]; [|discriminate]. cbn [bind] in *. destruct i as [|i0 i]; [discriminate|].
    destruct (snd (rows t0 ComplexArr _)) as [q|]; [|discriminate]. cbn [bind fst snd]. eauto. }
  destruct RUN as (y & b1 & R1).
  assert (AL : alike 1 2 (map (map RtoC) [[1; 2]; [3; 5]]) (map (map RtoC) [[0; 1]; [1; 1]]) (map (map RtoC) [[1; 4]; [5; 7]])).
  { cbn [map]. unfold alike. do 2 (constructor; [do 2 (constructor; [unfold ccomb, RtoC, Cplus, Cmult; cbn [fst snd]; f_equal; lra|]); constructor|]). constructor. }
  pose proof (double_three _ _ _ _ _ _ _ _ _ _ (DNum 1) FloatArr FloatArr FloatArr 1 2 _ _ _ HD ltac:(unfold linear_extrap; lia)
    (or_introl eq_refl) (or_introl eq_refl) (or_introl eq_refl) AL) as T.
  rewrite R1 in T. unfold res3 in T.
  destruct (snd (d_multipoles d (DNum 1) FloatArr (map (map RtoC) [[0; 1]; [1; 1]]))) as [[y2 b2]|] eqn:R2; [|contradiction].
  destruct (snd (d_multipoles d (DNum 1) FloatArr (map (map RtoC) [[1; 4]; [5; 7]]))) as [[y3 b3]|] eqn:R3; [|contradiction].
  cbn [fst snd] in T. destruct T as (-> & -> & T). exists d, y, b1, b2, b3. do 2 (split; [first [exact HD|reflexivity]|]). auto.
Qed.

Print Assumptions double_three.
Print Assumptions double_three_case.
