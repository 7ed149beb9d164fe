(* Window convolution: the assumptions on interpolation can be met, the named
   formulae, and cases for C62 and C63. *)
From Coq Require Import String.
From Coq Require Import Reals ZArith List Lia Lra Bool Permutation.
From Coquelicot Require Import Complex.
From Verif Require Import Base ArrayModel ArrayProofs Array2dModel RSum MultipoleModel
  WindowModel WindowProps WinFormulaModel WinConvModel WinConvProps WinConvSumProps
  WinConvRangeProps.
Import ListNotations.
Local Open Scope R_scope.

(* ------------------------------------------------------------------ *)
(* An interpolation that meets every assumption                        *)

(** The sample at the point that is read, and the first sample elsewhere. *)
Fixpoint index_of (x : list R) (r : R) : option nat :=
  match x with
  | [] => None
  | a :: t => if Req_EM_T a r then Some 0%nat else option_map S (index_of t r)
  end.
Definition place (x : list R) (r : R) : nat :=
  match index_of x r with Some i => i | None => 0%nat end.

Fixpoint all_distinct (x : list R) : bool :=
  match x with
  | [] => true
  | a :: t => match index_of t a with Some _ => false | None => all_distinct t end
  end.
Definition usable (x : list R) : bool := negb (length x =? 0)%nat && all_distinct x.

Definition pick1 (k : nat) (e : bool) (x y : list R) : res (R -> R) :=
  if usable x && (length y =? length x)%nat then Ok (fun r => nth (place x r) y 0)
  else Err ValueError.
Definition pick2 (k : nat) (x : list R) (z : matrix) : res (R -> R -> R) :=
  if usable x then Ok (fun a b => nth (place x b) (nth (place x a) z []) 0)
  else Err ValueError.

Lemma index_lt x r i : index_of x r = Some i -> (i < length x)%nat /\ nth i x 0 = r.
Proof.
  revert i; induction x as [|a x IH]; intros i H; cbn [index_of] in H; [discriminate|].
  destruct (Req_EM_T a r) as [->|n].
  - injection H as <-. cbn. split; [lia|reflexivity].
  - destruct (index_of x r) as [j|]; [|discriminate]. injection H as <-.
    destruct (IH j eq_refl) as [L E]. cbn. split; [lia|exact E].
Qed.

Lemma index_none x r : index_of x r = None -> ~ In r x.
Proof.
  induction x as [|a x IH]; intros H; cbn [index_of] in H; [tauto|].
  destruct (Req_EM_T a r) as [->|n]; [discriminate|].
  destruct (index_of x r); [discriminate|]. intros [E|I]; [congruence|now apply IH].
Qed.

Lemma place_lt x r : usable x = true -> (place x r < length x)%nat.
Proof.
  unfold usable. intros H. apply andb_true_iff in H as [H _]. apply negb_true_iff, Nat.eqb_neq in H.
  unfold place. destruct (index_of x r) as [i|] eqn:E; [|lia]. apply (index_lt x r i E).
Qed.

Lemma place_nth x i : all_distinct x = true -> (i < length x)%nat -> place x (nth i x 0) = i.
Proof.
  intros H Hi. assert (E : index_of x (nth i x 0) = Some i); [|unfold place; now rewrite E].
  revert i H Hi; induction x as [|a x IH]; intros i H Hi; [cbn in Hi; lia|].
  cbn [all_distinct] in H. destruct (index_of x a) as [j|] eqn:E; [discriminate|].
  apply index_none in E. destruct i as [|i]; cbn [nth index_of].
  - destruct (Req_EM_T a a); [reflexivity|congruence].
  - cbn [length] in Hi. destruct (Req_EM_T a (nth i x 0)) as [Ea|_].
    + exfalso. apply E. rewrite Ea. apply nth_In. lia.
    + rewrite IH by (assumption || lia). reflexivity.
Qed.

Lemma nth_repeat_lt {A} (c d : A) n i : (i < n)%nat -> nth i (repeat c n) d = c.
Proof. revert i; induction n as [|n IH]; intros [|i] H; cbn; try lia; try reflexivity. apply IH. lia. Qed.

(** The assumptions of C62 and C63 hold together, for interpolations that
    accept any table at distinct points. *)
Theorem assumptions_hold :
  linear1 pick1 /\ exact1 pick1 /\ const1 pick1 /\ exact2 pick2 /\ const2 pick2
  /\ homogeneous (fun _ y => rsum y)
  /\ forall k e x, x <> [] -> NoDup x ->
       (forall y, length y = length x -> exists f, pick1 k e x y = Ok f)
       /\ (forall z, exists f, pick2 k x z = Ok f).
Proof.
  split; [|split; [|split; [|split; [|split; [|split]]]]].
  - intros k e x y z fy fz a b Hy Hz. unfold pick1 in *.
    destruct (usable x) eqn:U; [|discriminate]. cbn [andb] in *.
    destruct (length y =? length x)%nat eqn:Ly; [|discriminate].
    destruct (length z =? length x)%nat eqn:Lz; [|discriminate].
    apply Nat.eqb_eq in Ly, Lz.
    assert (E : length (lincomb a y b z) = length x).
    { unfold lincomb. rewrite map_length, combine_length. lia. }
    rewrite E, Nat.eqb_refl. eexists. split; [reflexivity|]. intros r.
    injection Hy as <-. injection Hz as <-. pose proof (place_lt x r U) as P.
    unfold lincomb. set (g := fun p : R * R => a * fst p + b * snd p).
    rewrite (nth_indep _ 0 (g (0, 0))) by (rewrite map_length, combine_length; lia).
    rewrite (map_nth g), combine_nth by lia. reflexivity.
  - intros k e x y f H. unfold pick1 in H. destruct (usable x) eqn:U; [|discriminate].
    cbn [andb] in H. destruct (length y =? length x)%nat eqn:Ly; [|discriminate].
    apply Nat.eqb_eq in Ly. injection H as <-. split; [exact Ly|]. intros i Hi.
    apply andb_true_iff in U as [_ U]. now rewrite place_nth.
  - intros k e x c f H r. unfold pick1 in H. destruct (usable x) eqn:U; [|discriminate].
    cbn [andb] in H. destruct (length (repeat c (length x)) =? length x)%nat; [|discriminate].
    injection H as <-. apply nth_repeat_lt. now apply place_lt.
  - intros k x z f H i j Hi Hj. unfold pick2 in H. destruct (usable x) eqn:U; [|discriminate].
    injection H as <-. apply andb_true_iff in U as [_ U]. now rewrite !place_nth.
  - intros k x c f H a b. unfold pick2 in H. destruct (usable x) eqn:U; [|discriminate].
    injection H as <-. unfold const_matrix.
    rewrite (nth_repeat_lt (repeat c (length x))) by now apply place_lt.
    apply nth_repeat_lt. now apply place_lt.
  - intros x y c. induction y as [|v y IH]; [cbn; ring|]. cbn [map]. rewrite !rsum_cons, IH. ring.
  - intros k e x Nx Nd.
    assert (U : usable x = true).
    { unfold usable. apply andb_true_iff. split.
      - destruct x; [congruence|reflexivity].
      - clear Nx. induction Nd as [|a x I _ IH]; [reflexivity|]. cbn [all_distinct].
        destruct (index_of x a) as [j|] eqn:E; [|exact IH].
        exfalso. apply I. apply index_lt in E as [L <-]. now apply nth_In. }
    unfold pick1, pick2. rewrite U. split; [|eauto].
    intros y ->. rewrite Nat.eqb_refl. cbn [andb]. eauto.
Qed.

(* ------------------------------------------------------------------ *)
(* The named formulae                                                  *)

Ltac compute_formulae H :=
  cbv -[IZR Rdiv Rmult Rinv Ropp Rplus Rminus] in H; injection H as <-.

Theorem wilson_unit f : build_formulae wilson_raw = Ok f ->
  f_poles f = [[0]; [2]; [4]]%Z /\ f_ic f = false
  /\ forall m, In m (f_poles f) -> unit_formula [0%Z] f m.
Proof.
  intros H. compute_formulae H. split; [reflexivity|]. split; [reflexivity|].
  intros m [<-|[<-|[<-|[]]]] ts E; cbv -[IZR Rdiv] in E; injection E as <-; reflexivity.
Qed.

Theorem sugiyama_unit f : build_formulae sugiyama19 = Ok f ->
  f_ic f = true /\ balanced f
  /\ forall m ts, lookup (f_dict f) m = Ok ts ->
       filter (fun t => meq (t_Q t) monopole && negb (zeq (t_Z t) ZIc)) ts
       = [mk_cterm monopole (ZPole m) 1].
Proof.
  intros H. compute_formulae H. split; [reflexivity|]. split.
  - intros m ts q E. apply lookup_some_in in E. cbn [f_dict] in E.
    destruct E as [E|[E|[E|[E|[]]]]]; injection E as <- <-;
      cbn [filter t_Q t_Z];
      repeat match goal with |- context [zeq ?a ?b] =>
        let v := eval vm_compute in (zeq a b) in change (zeq a b) with v end;
      cbn [orb];
      rewrite ?andb_true_r, ?andb_false_r;
      repeat match goal with |- context [if meq ?a q then _ else _] =>
        destruct (meq a q); cbn [filter map t_c rsum fold_right] end; try (unfold rsum; cbn; ring).
  - intros m ts E. apply lookup_some_in in E. cbn [f_dict] in E.
    destruct E as [E|[E|[E|[E|[]]]]]; injection E as <- <-; reflexivity.
Qed.

(* ------------------------------------------------------------------ *)
(* Cases                                                               *)

Definition case_poles : list (list Z) :=
  [[0; 0; 0]; [1; 1; 0]; [0; 2; 2]; [1; 1; 2]; [2; 0; 2]]%Z.
Definition case_points : list R := [1; 2].
Definition case_window : list (mlike * matrix) :=
  map (fun k => (MCopy k, [[3; 1]; [1; 2]])) case_poles.
Definition case_input : mdict cmatrix :=
  map (fun k => (k, let v := if meq k monopole then RtoC 7 else RtoC 0 in [[v; v]; [v; v]])) case_poles.

Lemma case_covered : covered case_points case_points = Ok true.
Proof.
  apply covered_inside; try discriminate; unfold case_points.
  - intros p [<-|[<-|[]]]; lra.
  - intros p [<-|[<-|[]]]; split; [exists 1|exists 1|exists 2|exists 2]; cbn; split; auto; lra.
Qed.

Definition case_spline (z : matrix) : R -> R -> R :=
  fun a b => nth (place case_points b) (nth (place case_points a) z []) 0.

Lemma case_usable : usable case_points = true.
Proof.
  unfold usable, case_points. cbn. destruct (Req_EM_T 2 1); [lra|reflexivity].
Qed.

Lemma case_pick k z : pick2 k case_points z = Ok (case_spline z).
Proof. unfold pick2. now rewrite case_usable. Qed.

Lemma case_denominator : Reqb (integrate2 (fun _ y => rsum y) case_points case_points
  (grid (case_spline [[3; 1]; [1; 2]]) case_points)) 0 = false.
Proof.
  assert (P1 : place [1; 2] 1 = 0%nat).
  { unfold place. cbn. destruct (Req_EM_T 1 1); [reflexivity|lra]. }
  assert (P2 : place [1; 2] 2 = 1%nat).
  { unfold place. cbn. destruct (Req_EM_T 1 2); [lra|].
    destruct (Req_EM_T 2 2); [reflexivity|lra]. }
  unfold Reqb. destruct (Req_EM_T _ 0) as [E|_]; [|reflexivity]. exfalso. revert E.
  unfold integrate2, grid, case_spline, case_points.
  cbn [map combine fst snd]. rewrite P1, P2.
  cbn [nth rsum fold_right]. lra.
Qed.

Example constant_removed_case : exists f c w out,
  build_formulae sugiyama19 = Ok f
  /\ new_conv f (One case_points) case_window
       (Each (map (fun k => (MCopy k, case_points)) case_poles)) None 1 = Ok (c, w)
  /\ convolve3 pick2 (fun _ y => rsum y) (fun _ _ _ => 1) c (as_keys case_input) None = Ok out
  /\ lookup out [1; 1; 0]%Z = Ok [[0; 0]; [0; 0]].
Proof.
  destruct sugiyama_builds as [f B]. destruct (sugiyama_unit f B) as (Hic & Bal & _).
  assert (N : exists c, new_conv f (One case_points) case_window
       (Each (map (fun k => (MCopy k, case_points)) case_poles)) None 1 = Ok (c, [])
     /\ exists out x, convolve3 pick2 (fun _ y => rsum y) (fun _ _ _ => 1) c (as_keys case_input) None = Ok out
     /\ lookup out [1; 1; 0]%Z = Ok x).
  { clear Bal Hic. compute_formulae B.
    eexists. split.
    - cbv -[case_points IZR Rdiv Ropp covered]. rewrite !case_covered. cbv -[case_points IZR Rdiv Ropp covered].
      reflexivity.
    - eexists. eexists. split.
      + cbv -[case_points IZR Rdiv Ropp Rplus Rmult Rinv covered pick2 Reqb grid integrate2 mmul msum rsum real_part RtoC].
        rewrite !case_covered, !case_pick.
        cbv -[case_points IZR Rdiv Ropp Rplus Rmult Rinv covered pick2 Reqb grid integrate2 mmul msum rsum real_part RtoC case_spline].
        rewrite case_denominator. reflexivity.
      + reflexivity. }
  destruct N as (c & N & out & x & Hout & Ex).
  assert (Ef : c_f c = f).
  { clear - N. unfold new_conv in N. apply bind_ok in N as (b & _ & N).
    apply bind_ok in N as (s & _ & N). injection N as <- _. reflexivity. }
  exists f, c, [], out. split; [exact B|]. split; [exact N|]. split; [exact Hout|].
  destruct assumptions_hold as (_ & _ & _ & _ & K2 & Hs & _).
  assert (Ets : exists t ts, lookup (f_dict f) [1; 1; 0]%Z = Ok (t :: ts)).
  { clear - B. compute_formulae B. eexists. eexists. reflexivity. }
  destruct Ets as (t & ts & Ets).
  assert (Ero : lookup (c_rout c) [1; 1; 0]%Z = Ok case_points).
  { clear - B N. compute_formulae B. cbv -[case_points IZR Rdiv Ropp covered] in N.
    rewrite !case_covered in N. cbv -[case_points IZR Rdiv Ropp covered] in N.
    injection N as <-. reflexivity. }
  subst f.
  destruct (constant_removed pick1 pick2 (fun _ y => rsum y) (fun _ _ _ => 1) sugiyama19 (One case_points) case_window
    (map (fun k => (MCopy k, case_points)) case_poles) None 1%nat c [] case_input 7 out
    B Hic Bal K2 Hs eq_refl N) with (m := [1; 1; 0]%Z) (x := x) (ts := t :: ts) as (ro & Ero' & ->).
  - repeat (constructor; [cbn; intuition discriminate|]). constructor.
  - intros m z Ez. apply lookup_some_in in Ez. exists case_points. cbn in Ez.
    repeat match type of Ez with _ \/ _ => destruct Ez as [Ez|Ez] end; try contradiction;
      injection Ez as <- <-; (split; [eexists; split; reflexivity|reflexivity]).
  - exact Hout.
  - exact Ets.
  - discriminate.
  - exact Ex.
  - rewrite Ex. rewrite Ero in Ero'. injection Ero' as <-. reflexivity.
Qed.

Definition unit_window : list (mlike * list R) :=
  map (fun q => (MInt q, if (q =? 0)%Z then [1; 1] else [0; 0])) [0; 2; 4; 6; 8]%Z.
Definition unit_input : mdict (list R) := [([0%Z], [5; 6]); ([2%Z], [7; 8]); ([4%Z], [9; 10])].

Lemma case_pick1 k e y0 y1 : pick1 k e case_points [y0; y1] = Ok (fun r => nth (place case_points r) [y0; y1] 0).
Proof. unfold pick1. now rewrite case_usable. Qed.

(** A window that is one in the monopole and zero elsewhere returns the input. *)
Example unit_window_case : exists f c out,
  build_formulae wilson_raw = Ok f
  /\ new_conv f (One case_points) unit_window (One case_points) None 1 = Ok (c, [])
  /\ convolve2 pick1 c (as_keys unit_input) = Ok out
  /\ lookup out [2%Z] = Ok [7; 8].
Proof.
  destruct (build_formulae wilson_raw) as [f|e] eqn:B; [|vm_compute in B; discriminate].
  destruct (wilson_unit f B) as (Ep & _ & U). exists f.
  assert (N : exists c, new_conv f (One case_points) unit_window (One case_points) None 1 = Ok (c, [])
    /\ (exists out, convolve2 pick1 c (as_keys unit_input) = Ok out)
    /\ zlookup (c_rin c) (ZPole [2%Z]) = Ok case_points /\ lookup (c_rout c) [2%Z] = Ok case_points
    /\ (forall q rq, lookup (c_rQ c) q = Ok rq -> In q (f_Q (c_f c)) ->
          lookup (c_Q c) q = Ok (repeat (if meq q [0%Z] then 1 else 0) (length rq)))).
  { clear U Ep. compute_formulae B. eexists. split; [|split; [|split; [|split]]].
    - cbv -[case_points IZR Rdiv Ropp covered]. rewrite !case_covered.
      cbv -[case_points IZR Rdiv Ropp covered]. reflexivity.
    - eexists. cbv -[case_points IZR Rdiv Ropp Rplus Rmult Rinv pick1 place vsum].
      rewrite !case_pick1. cbv -[case_points IZR Rdiv Ropp Rplus Rmult Rinv pick1 place vsum].
      reflexivity.
    - reflexivity.
    - reflexivity.
    - intros q rq E _. apply lookup_some_in in E. cbn [c_rQ In] in E.
      repeat (destruct E as [E|E]; [injection E as <- <-; reflexivity|]). contradiction. }
  destruct N as (c & N & (out & Hout) & Ei & Eo & W). exists c, out.
  assert (Ef : c_f c = f).
  { clear - N. unfold new_conv in N. apply bind_ok in N as (b & _ & N).
    apply bind_ok in N as (s & _ & N). injection N as <- _. reflexivity. }
  split; [reflexivity|]. split; [exact N|]. split; [exact Hout|]. subst f.
  destruct assumptions_hold as (_ & X1 & K1 & _).
  assert (I2 : In [2%Z] (f_poles (c_f c))) by (rewrite Ep; cbn; tauto).
  destruct (convolve2_unit pick1 wilson_raw c unit_input out [0%Z] [2%Z] case_points [7; 8]
    B K1 I2 (U _ I2) W Hout Ei eq_refl) as (ro & fz & Ero & _ & _ & G).
  apply (G X1). rewrite Eo in Ero. now injection Ero as <-.
Qed.

Print Assumptions assumptions_hold.
Print Assumptions wilson_unit.
Print Assumptions sugiyama_unit.
