(* Properties C30 and C57: setting and updating entries of a Python
   parameter set. *)
From Coq Require Import String Ascii List ZArith Reals Bool Lia Lra.
From Verif Require Import Base StrModel StrProps Dec ArrayModel ArrayProofs MeshModel
  ParamModel ParamProps ParamValProps ParamFixProps PyParamModel PyParamProofs
  PyParamAgainProps.
Import ListNotations.
Local Open Scope string_scope.

(* ------------------------------------------------------------------ *)
(** * Assignments that raise *)

(** Whatever is wrong with it, a rejected value stays: the entry then reads
    as the rejected value, and every other entry outside the working space as
    before.  (RuntimeError comes after validation; see [set_any].) *)
Theorem set_failed fuel e k v s d x :
  setitem fuel e k v s = (d, Err x) -> x <> RuntimeError ->
  (~ In k scratch -> getitem d k = Ok v) /\
  (forall j, j <> k -> ~ In j scratch -> getitem d j = getitem (entries s) j).
Proof.
  unfold setitem, update. cbn [dupdate]. intros H N. apply parse_err in H; [|exact N].
  unfold getitem. split.
  - intros K. rewrite (H k K), dget_dset_same. reflexivity.
  - intros j J K. rewrite (H j K), dget_dset_other by exact J. reflexivity.
Qed.

(** So the previous value is read only if it was the same one. *)
Corollary set_failed_old fuel e k v s d x old :
  setitem fuel e k v s = (d, Err x) -> x <> RuntimeError -> ~ In k scratch ->
  getitem (entries s) k = Ok old ->
  (getitem d k = getitem (entries s) k <-> v = old).
Proof.
  intros H N K O. destruct (set_failed _ _ _ _ _ _ _ H N) as [G _]. rewrite (G K), O.
  split; congruence.
Qed.

(** With or without an exception, entries other than [k], the working space
    and the fetched ones are not changed, and [k] is set. *)
Theorem set_any fuel e k v s d r :
  setitem fuel e k v s = (d, r) ->
  (~ In k (scratch ++ fetched) -> getitem d k = Ok v) /\
  (forall j, j <> k -> ~ In j (scratch ++ fetched) ->
     getitem d j = getitem (entries s) j).
Proof.
  unfold setitem, update. cbn [dupdate]. intros H. apply parse_agree in H.
  unfold getitem. split.
  - intros K. rewrite (H k K), dget_dset_same. reflexivity.
  - intros j J K. rewrite (H j K), dget_dset_other by exact J. reflexivity.
Qed.

(** The same for updates with several entries. *)
Lemma dget_dupdate_other {A} j (u d : list (string * A)) :
  ~ In j (map fst u) -> dget j (dupdate u d) = dget j d.
Proof.
  revert d; induction u as [|[k v] u IH]; intros d N; cbn in *; [reflexivity|].
  rewrite IH by tauto. apply dget_dset_other. intros ->. tauto.
Qed.

Lemma dget_dupdate_in {A} j v (u d : list (string * A)) :
  NoDup (map fst u) -> In (j, v) u -> dget j (dupdate u d) = Some v.
Proof.
  revert d; induction u as [|[k w] u IH]; intros d N I; cbn in *; [contradiction|].
  inversion N as [|? ? N1 N2]; subst. destruct I as [[= -> ->]|I].
  - rewrite dget_dupdate_other by assumption. apply dget_dset_same.
  - now apply IH.
Qed.

Theorem update_failed fuel e u s d x :
  update fuel e u s = (d, Err x) -> x <> RuntimeError -> NoDup (map fst u) ->
  (forall k v, In (k, v) u -> ~ In k scratch -> getitem d k = Ok v) /\
  (forall j, ~ In j (map fst u) -> ~ In j scratch -> getitem d j = getitem (entries s) j).
Proof.
  unfold update. intros H N D. apply parse_err in H; [|exact N]. unfold getitem. split.
  - intros k v I K. rewrite (H k K), (dget_dupdate_in k v) by assumption. reflexivity.
  - intros j J K. rewrite (H j K), dget_dupdate_other by exact J. reflexivity.
Qed.

Theorem update_any fuel e u s d r :
  update fuel e u s = (d, r) -> NoDup (map fst u) ->
  (forall k v, In (k, v) u -> ~ In k (scratch ++ fetched) -> getitem d k = Ok v) /\
  (forall j, ~ In j (map fst u) -> ~ In j (scratch ++ fetched) ->
     getitem d j = getitem (entries s) j).
Proof.
  unfold update. intros H D. apply parse_agree in H. unfold getitem. split.
  - intros k v I K. rewrite (H k K), (dget_dupdate_in k v) by assumption. reflexivity.
  - intros j J K. rewrite (H j K), dget_dupdate_other by exact J. reflexivity.
Qed.

(** A set holding a number of bins below two cannot be updated in any other
    entry, in whatever state its C++ side is, and cannot be rebuilt. *)
Lemma bad_bins_parse fuel e c b d n :
  dget "num_bins" d = Some (VInt n) -> (n < 2)%Z ->
  exists d' x, parse fuel e c b d = (d', Err x).
Proof.
  intros H L. destruct (parse fuel e c b d) as [d' [[q pb]|x]] eqn:P.
  - exfalso. apply parse_ok in P as (d1 & p & P & V & _).
    assert (A := writes_pre e c b d). rewrite P in A. cbn [fst] in A.
    apply pre_inv in P as ([] & _). unfold r_num_bins in rd_num_bins.
    rewrite A, H in rd_num_bins by notin. injection rd_num_bins as E.
    apply validate_cases in V as (h & HH & [(_ & _ & _ & T)|(_ & _ & f & g & _ & _ & V)]).
    + apply tail_val in T as (_ & B & _). apply bins_ok in B as (_ & B & _).
      apply head_vals in HH as (U & _). unfold untouched in U.
      assert (num_bins (msr h) = num_bins (msr p)) by apply U. lia.
    + assert (O := validate_outcome _ _ _ _ _ V). destruct O as (U & _).
      assert (T := validate_tail_fix _ _ _ _ _ V). specialize (T "").
      apply tail_val in T as (_ & B & _). apply bins_ok in B as (_ & B & _).
      apply head_vals in HH as (U' & _). unfold untouched in U, U'.
      assert (num_bins (msr q) = num_bins (msr (regrid g h))) by apply U.
      assert (num_bins (msr h) = num_bins (msr p)) by apply U'.
      cbn [regrid msr] in *. lia.
  - now exists d', x.
Qed.

Theorem bad_bins_stuck fuel e s n j w :
  getitem (entries s) "num_bins" = Ok (VInt n) -> (n < 2)%Z -> j <> "num_bins" ->
  exists d x, setitem fuel e j w s = (d, Err x) /\ getitem d "num_bins" = Ok (VInt n).
Proof.
  intros H L J. assert (G : dget "num_bins" (entries s) = Some (VInt n)).
  { revert H. unfold getitem. now destruct (dget "num_bins" (entries s)) as [v|]; intros [= ->]. }
  destruct (bad_bins_parse fuel e (cpp s) (bar s) (dset j w (entries s)) n) as (d & x & P).
  - rewrite dget_dset_other by congruence. exact G.
  - exact L.
  - exists d, x. split; [exact P|].
    destruct (set_any fuel e j w s d _ P) as [_ K]. rewrite K; [exact H|congruence|notin].
Qed.

Theorem bad_bins_rebuild fuel e d n :
  dget "num_bins" d = Some (VInt n) -> (n < 2)%Z ->
  exists d' x, construct fuel e d = (d', Err x).
Proof. apply bad_bins_parse. Qed.

(* ------------------------------------------------------------------ *)
(** * Assignments that succeed *)

(** The fetched entries read as the C++ set has them. *)
Theorem set_shows fuel e k v s d q pb :
  setitem fuel e k v s = (d, Ok (q, pb)) ->
  getitem d "npoint" = Ok (VStr (npoint (msr q))) /\
  getitem d "space" = Ok (VStr (space (msr q))) /\
  getitem d "assignment_order" = Ok (VInt (assignment_order (smp q))) /\
  (getitem d "interlace" = Ok (VBool true) <-> interlace (smp q) = "true") /\
  (getitem d "interlace" = Ok (VBool false) <-> interlace (smp q) = "false").
Proof.
  intros H. apply parse_ok in H as (d1 & p & _ & V & F). apply fetch_ok in F as [].
  apply validate_outcome in V as (_ & _ & I). apply settled_values in I.
  destruct sh_interlace as (i & Hi & Li). unfold getitem.
  rewrite sh_npoint, sh_space, sh_order, Hi.
  split; [reflexivity|]. split; [reflexivity|]. split; [reflexivity|].
  destruct i, I as [I|I]; rewrite I in *; split; split; congruence || discriminate.
Qed.

(** Interlacing reads as asked for, except that three-point statistics turn
    it off without complaint. *)
Theorem set_interlace fuel e v s d q pb :
  setitem fuel e "interlace" v s = (d, Ok (q, pb)) -> v <> VNone ->
  In (lower (py_str e v)) ["true"; "on"; "false"; "off"] /\
  getitem d "interlace" =
    Ok (VBool ((existsb (String.eqb (lower (py_str e v))) ["true"; "on"])
               && negb (npoint (msr q) =? "3pt"))).
Proof.
  intros H NV. apply parse_ok in H as (d1 & p & P & V & F).
  assert (A := writes_pre e (cpp s) (bar s) (dset "interlace" v (entries s))).
  cbn [dupdate] in P. rewrite P in A. cbn [fst] in A.
  apply pre_inv in P as ([] & _). apply fetch_ok in F as [].
  assert (IE : interlace (smp p) = lower (py_str e v)).
  { revert rd_interlace. unfold r_str. rewrite A, dget_dset_same by notin.
    destruct v; [contradiction|..]; congruence. }
  assert (O := validate_outcome _ _ _ _ _ V). destruct O as (_ & _ & I).
  assert (J : In (interlace (smp p)) ["true"; "on"; "false"; "off"]).
  { apply validate_cases in V as (h & HH & _).
    assert (X : exists h, val_head (lib e) true p = Ok h) by now exists h.
    apply head_ok in X. apply X. }
  rewrite <- IE. split; [exact J|].
  destruct sh_interlace as (i & Hi & Li). unfold getitem. rewrite Hi.
  unfold interlacing_settled in I. rewrite I in Li. do 2 f_equal.
  destruct (npoint (msr q) =? "3pt"); cbn [negb]; rewrite ?andb_false_r, ?andb_true_r.
  - now destruct i.
  - cbn in J. destruct J as [J|[J|[J|[J|[]]]]]; rewrite <- J in *; cbn in *; now destruct i.
Qed.

(** Setting the same value again changes nothing, under the conditions of
    [parse_again]. *)
Theorem set_twice fuel e k v s d q pb :
  setitem fuel e k v s = (d, Ok (q, pb)) ->
  getitem d k = Ok v ->
  full_grid d -> In (statistic_type (msr q)) (map fst statistics) ->
  getitem d "use_fftw_wisdom" = Ok (VBool false) ->
  exists q' pb', setitem fuel e k v {| entries := d; cpp := q; bar := pb |} = (d, Ok (q', pb')) /\
    (save_binned_vectors (msc q) = "" -> q' = q).
Proof.
  intros H K G S W. unfold setitem, update in *. cbn [dupdate entries cpp bar] in *.
  assert (Q : forall j x, getitem d j = Ok x -> dget j d = Some x).
  { intros j x. unfold getitem. now destruct (dget j d); intros [= ->]. }
  rewrite (dset_present k v d) by (now apply Q).
  eapply parse_again; eauto.
Qed.

(** An entry outside the working space and the fetched ones reads back as
    set, so the condition on [k] holds for those. *)
Corollary set_reads fuel e k v s d r :
  setitem fuel e k v s = (d, r) -> ~ In k (scratch ++ fetched) -> getitem d k = Ok v.
Proof. intros H. apply (set_any _ _ _ _ _ _ _ H). Qed.

(* ------------------------------------------------------------------ *)
(** * The wisdom directory *)

(** With wisdom on, every successful assignment lower-cases the directory
    and puts one more slash behind it. *)
Theorem wisdom_grows fuel e k v s d q pb w :
  setitem fuel e k v s = (d, Ok (q, pb)) -> k <> "use_fftw_wisdom" ->
  getitem (entries s) "use_fftw_wisdom" = Ok (VStr w) ->
  gpu (lib e) = false -> lower w <> "false" -> free_of dollar w -> full_grid d ->
  getitem d "use_fftw_wisdom" = Ok (VStr (lower w ++ "/")).
Proof.
  intros H K W G NF FD (gi & gj & gk & GP & GE & GM).
  assert (W' : dget "use_fftw_wisdom" (entries s) = Some (VStr w)).
  { revert W. unfold getitem. now destruct (dget _ (entries s)); intros [= ->]. }
  apply parse_ok in H as (d1 & p & P & V & F). cbn [dupdate] in P.
  assert (A := writes_pre e (cpp s) (bar s) (dset k v (entries s))).
  rewrite P in A. cbn [fst] in A.
  assert (FA := writes_fetch q pb d1). rewrite F in FA. cbn [fst] in FA.
  apply pre_inv in P as ([] & (nv & NV1 & NV2) & RG).
  assert (NM : nmesh (smp p) = (gi * gj * gk)%Z).
  { rewrite <- FA in NV1 by notin. rewrite GM in NV1. injection NV1 as <-. now injection NV2. }
  destruct (RG ltac:(lia)) as (G1 & _).
  assert (NG : ngrid (smp p) = T3 gi gj gk).
  { unfold r_triple in G1. rewrite <- FA in G1 by notin. rewrite GE in G1. now injection G1. }
  assert (D : direct p) by (right; rewrite NG; exact GP).
  assert (UW : use_fftw_wisdom (msc p) = lower w).
  { revert rd_wisdom. unfold r_str. rewrite A, dget_dset_other, W' by (notin || congruence).
    cbn [py_str]. congruence. }
  apply fetch_ok in F as []. unfold getitem. rewrite sh_wisdom.
  destruct (validate_misc _ _ _ _ V D) as (_ & _ & m3 & _).
  rewrite G, UW in m3. destruct (lower w =? "false") eqn:E; [apply String.eqb_eq in E; contradiction|].
  rewrite m3, expand_plain.
  - rewrite lower_app. cbn [lower]. change (lower_char "/") with "/"%char.
    assert (X : (lower (lower w) ++ "/" =? "false") = false).
    { apply String.eqb_neq. intros X. assert (Y : slash_end "false") by (rewrite <- X; now eexists).
      destruct Y as ([|? [|? [|? [|? [|? [|? ?]]]]]] & Y); discriminate. }
    rewrite X. now destruct (lower (lower w)).
  - apply free_app. split; [|split; [discriminate|exact I]].
    clear -FD. induction w as [|c w IH]; [exact I|]. destruct FD as [N FD]. split; [|now apply IH].
    unfold lower_char. intros E.
    destruct ((65 <=? nat_of_ascii c)%nat && (nat_of_ascii c <=? 90)%nat) eqn:R; [|contradiction].
    apply andb_true_iff in R as [R1 R2]. apply Nat.leb_le in R1, R2.
    apply (f_equal nat_of_ascii) in E. rewrite nat_ascii_embedding in E by lia.
    change (nat_of_ascii dollar) with 36%nat in E. lia.
Qed.

(* ------------------------------------------------------------------ *)
(** * Property C57: the C++ set against the entries *)

(** After a successful assignment every entry that is set is the one the C++
    code uses, strings being lower-cased. *)
Theorem set_agrees fuel e k v s d q pb :
  setitem fuel e k v s = (d, Ok (q, pb)) ->
  (forall a b c, getitem d "boxsize" = Ok (VDict [("x", VNum a); ("y", VNum b); ("z", VNum c)]) ->
     boxsize (smp q) = T3 a b c) /\
  (full_grid d -> forall a b c,
     getitem d "ngrid" = Ok (VDict [("x", VInt a); ("y", VInt b); ("z", VInt c)]) ->
     ngrid (smp q) = T3 a b c) /\
  (forall a b, getitem d "range" = Ok (VList [VNum a; VNum b]) ->
     bin_min (msr q) = a /\ bin_max (msr q) = b) /\
  (forall n, getitem d "num_bins" = Ok (VInt n) -> num_bins (msr q) = n) /\
  (forall n, getitem d "idx_bin" = Ok (VInt n) -> idx_bin (msr q) = n) /\
  (forall x, getitem d "expand" = Ok (VNum x) -> expand (smp q) = x) /\
  (forall x, getitem d "padfactor" = Ok (VNum x) -> padfactor (smp q) = x) /\
  (forall l1 l2 L, getitem d "degrees" = Ok (VDict [("ell1", VInt l1); ("ell2", VInt l2); ("ELL", VInt L)]) ->
     ell1 (msr q) = l1 /\ ell2 (msr q) = l2 /\ ELL (msr q) = L) /\
  (forall t, getitem d "alignment" = Ok (VStr t) -> alignment (smp q) = lower t) /\
  (forall t, getitem d "padscale" = Ok (VStr t) -> padscale (smp q) = lower t) /\
  (forall t, getitem d "assignment" = Ok (VStr t) -> assignment (smp q) = lower t) /\
  (forall t, getitem d "catalogue_type" = Ok (VStr t) -> catalogue_type (msr q) = lower t) /\
  (forall t, getitem d "statistic_type" = Ok (VStr t) -> statistic_type (msr q) = lower t) /\
  (forall t, getitem d "form" = Ok (VStr t) -> form (msr q) = lower t) /\
  (forall t, getitem d "norm_convention" = Ok (VStr t) -> norm_convention (msr q) = lower t) /\
  (forall t, getitem d "binning" = Ok (VStr t) -> binning (msr q) = lower t).
Proof.
  intros H. apply parse_ok in H as (d1 & p & P & V & F).
  assert (FA := writes_fetch q pb d1). rewrite F in FA. cbn [fst] in FA.
  apply pre_inv in P as ([] & (nv & NV1 & NV2) & RG).
  assert (GG : forall j x, ~ In j fetched -> getitem d j = Ok x -> dget j d1 = Some x).
  { intros j x N. rewrite <- (FA j N). unfold getitem. now destruct (dget j d); intros [= ->]. }
  assert (VO := validate_outcome _ _ _ _ _ V). destruct VO as (U & _).
  destruct U as (u1&u2&u3&u4&u5&u6&u7&u8&u9&u10&u11&u12&u13&u14&u15&u16&u17&u18&u19&u20).
  split.
  { intros a b c E. apply GG in E; [|notin]. unfold r_triple in rd_box. rewrite E in rd_box.
    injection rd_box as E2. congruence. }
  split.
  { intros (gi & gj & gk & GP & GE & GM) a b c E. apply GG in E; [|notin].
    assert (GE' := GE). rewrite (FA "ngrid") in GE' by notin. rewrite GE' in E. injection E as <- <- <-.
    rewrite <- FA in NV1 by notin. rewrite GM in NV1. injection NV1 as <-. injection NV2 as NV2.
    destruct (RG ltac:(lia)) as (G1 & _). unfold r_triple in G1. rewrite GE' in G1.
    injection G1 as G1.
    assert (D : direct p) by (right; rewrite <- G1; exact GP).
    rewrite (proj1 (validate_grid _ _ _ _ _ V) D). now rewrite <- G1. }
  split.
  { intros a b E. apply GG in E; [|notin]. unfold r_range in rd_range. rewrite E in rd_range.
    injection rd_range as E1 E2. split; congruence. }
  split.
  { intros n E. apply GG in E; [|notin]. unfold r_num_bins in rd_num_bins. rewrite E in rd_num_bins.
    injection rd_num_bins as E1. congruence. }
  split.
  { intros n E. apply GG in E; [|notin]. unfold r_int in rd_idx_bin. rewrite E in rd_idx_bin.
    injection rd_idx_bin as E1. congruence. }
  split.
  { intros n E. apply GG in E; [|notin]. unfold r_float in rd_expand. rewrite E in rd_expand.
    injection rd_expand as E1. congruence. }
  split.
  { intros n E. apply GG in E; [|notin]. unfold r_float in rd_padfactor. rewrite E in rd_padfactor.
    injection rd_padfactor as E1. congruence. }
  split.
  { intros l1 l2 L E. apply GG in E; [|notin]. unfold r_nested in rd_ell1, rd_ell2, rd_ELL.
    rewrite E in rd_ell1, rd_ell2, rd_ELL. injection rd_ell1 as E1. injection rd_ell2 as E2.
    injection rd_ELL as E3. repeat split; congruence. }
  assert (L : forall key o x t, ~ In key fetched -> r_lower d1 key o = Ok x ->
              getitem d key = Ok (VStr t) -> x = lower t).
  { intros key o x t N R E. apply GG in E; [|exact N]. unfold r_lower in R. rewrite E in R.
    now injection R. }
  assert (RF : r_lower d1 "form" (form (msr (cpp s))) = Ok (form (msr p))).
  { revert rd_form. unfold r_form. destruct (r_lower d1 "form" (form (msr (cpp s)))) as [xx|xx]; cbn [bind]; [|auto].
    destruct (dget "form" d1) as [[]|]; auto. destruct ((s0 =? "off-diag") || (s0 =? "row")); auto.
    destruct (dget "idx_bin" d1) as [[]|]; intros ?; congruence. }
  repeat split; intros t E.
  - rewrite u4. eapply (L "alignment"); eauto; notin.
  - rewrite u5. eapply (L "padscale"); eauto; notin.
  - rewrite u7. eapply (L "assignment"); eauto; notin.
  - rewrite u8. eapply (L "catalogue_type"); eauto; notin.
  - rewrite u9. eapply (L "statistic_type"); eauto; notin.
  - rewrite u13. eapply (L "form"); eauto; notin.
  - rewrite u14. eapply (L "norm_convention"); eauto; notin.
  - rewrite u15. eapply (L "binning"); eauto; notin.
Qed.

(** Entries that are unset do not reset the C++ set: it goes on using the
    previous value. *)
Theorem set_none_keeps fuel e k v s d q pb :
  setitem fuel e k v s = (d, Ok (q, pb)) ->
  (forall f, getitem d "boxsize" = Ok (VDict f) -> In VNone (map snd f) ->
     boxsize (smp q) = boxsize (smp (cpp s))) /\
  (forall j, In j ["alignment"; "padscale"; "assignment"; "form"; "binning"; "norm_convention";
                   "statistic_type"; "catalogue_type"; "idx_bin"; "expand"] ->
     getitem d j = Ok VNone ->
     match j with
     | "alignment" => alignment (smp q) = alignment (smp (cpp s))
     | "padscale" => padscale (smp q) = padscale (smp (cpp s))
     | "assignment" => assignment (smp q) = assignment (smp (cpp s))
     | "form" => form (msr q) = form (msr (cpp s))
     | "binning" => binning (msr q) = binning (msr (cpp s))
     | "norm_convention" => norm_convention (msr q) = norm_convention (msr (cpp s))
     | "statistic_type" => statistic_type (msr q) = statistic_type (msr (cpp s))
     | "catalogue_type" => catalogue_type (msr q) = catalogue_type (msr (cpp s))
     | "idx_bin" => idx_bin (msr q) = idx_bin (msr (cpp s))
     | _ => expand (smp q) = expand (smp (cpp s))
     end).
Proof.
  intros H. apply parse_ok in H as (d1 & p & P & V & F).
  assert (FA := writes_fetch q pb d1). rewrite F in FA. cbn [fst] in FA.
  apply pre_inv in P as ([] & _ & _).
  assert (GG : forall j x, ~ In j fetched -> getitem d j = Ok x -> dget j d1 = Some x).
  { intros j x N. rewrite <- (FA j N). unfold getitem. now destruct (dget j d); intros [= ->]. }
  assert (VO := validate_outcome _ _ _ _ _ V). destruct VO as (U & _).
  destruct U as (u1&u2&u3&u4&u5&u6&u7&u8&u9&u10&u11&u12&u13&u14&u15&u16&u17&u18&u19&u20).
  split.
  { intros f E I. apply GG in E; [|notin]. unfold r_triple in rd_box. rewrite E in rd_box.
    assert (X : existsb is_none (map snd f) = true).
    { apply existsb_exists. exists VNone. now split. }
    rewrite X in rd_box. injection rd_box as X2. congruence. }
  assert (L : forall key o x, ~ In key fetched -> r_lower d1 key o = Ok x ->
              getitem d key = Ok VNone -> x = o).
  { intros key o x N R E. apply GG in E; [|exact N]. unfold r_lower in R. rewrite E in R.
    now injection R. }
  intros j J E. cbn in J.
  destruct J as [<-|[<-|[<-|[<-|[<-|[<-|[<-|[<-|[<-|[<-|[]]]]]]]]]]].
  - rewrite u4. eapply (L "alignment"); eauto; notin.
  - rewrite u5. eapply (L "padscale"); eauto; notin.
  - rewrite u7. eapply (L "assignment"); eauto; notin.
  - rewrite u13. apply GG in E; [|notin]. unfold r_form, r_lower in rd_form. rewrite E in rd_form.
    now injection rd_form.
  - rewrite u15. eapply (L "binning"); eauto; notin.
  - rewrite u14. eapply (L "norm_convention"); eauto; notin.
  - rewrite u9. eapply (L "statistic_type"); eauto; notin.
  - rewrite u8. eapply (L "catalogue_type"); eauto; notin.
  - rewrite u19. apply GG in E; [|notin]. unfold r_int in rd_idx_bin. rewrite E in rd_idx_bin.
    now injection rd_idx_bin.
  - rewrite u2. apply GG in E; [|notin]. unfold r_float in rd_expand. rewrite E in rd_expand.
    now injection rd_expand.
Qed.

(** The entry for saving binned vectors never reaches C++. *)
Theorem bvec_ignored fuel e k v s d q pb :
  setitem fuel e k v s = (d, Ok (q, pb)) -> full_grid d ->
  In (save_binned_vectors (msc (cpp s))) [""; "false"] ->
  statistic_type (msr q) <> "modes" -> statistic_type (msr q) <> "pairs" ->
  save_binned_vectors (msc q) = "".
Proof.
  intros H (gi & gj & gk & GP & GE & GM) B NM NP.
  apply parse_ok in H as (d1 & p & P & V & F).
  assert (FA := writes_fetch q pb d1). rewrite F in FA. cbn [fst] in FA.
  apply pre_inv in P as ([] & (nv & NV1 & NV2) & RG).
  rewrite <- FA in NV1 by notin. rewrite GM in NV1. injection NV1 as <-. injection NV2 as NV2.
  destruct (RG ltac:(lia)) as (G1 & _). unfold r_triple in G1.
  rewrite <- FA, GE in G1 by notin. injection G1 as G1.
  assert (D : direct p) by (right; rewrite <- G1; exact GP).
  assert (VO := validate_outcome _ _ _ _ _ V). destruct VO as (U & _).
  assert (ST : statistic_type (msr q) = statistic_type (msr p)) by apply U.
  destruct (validate_misc _ _ _ _ V D) as (_ & _ & _ & _ & _ & m6).
  rewrite m6. cbv zeta. rewrite ST in NM, NP. apply String.eqb_neq in NM, NP. rewrite NM, NP.
  cbn [orb andb val_bvec save_binned_vectors]. destruct rd_misc as (_ & _ & _ & ->).
  cbn in B. destruct B as [B|[B|[]]]; rewrite <- B; apply expand_empty.
Qed.

(* ------------------------------------------------------------------ *)
(** * Grids from a cutoff need an entry nothing documents *)

Lemma pre_cutoff e c b d d' p pb :
  parse_pre e c b d = (d', Ok (p, pb)) ->
  to_float (match np_prod (values d "boxsize") with Some v => v | None => VNum 0 end)
    = Ok (volume (smp p)) /\
  to_int (match np_prod (values d "ngrid") with Some v => v | None => VInt 0 end)
    = Ok (nmesh (smp p)) /\
  (nmesh (smp p) = 0%Z -> 0 < volume (smp p) -> dget "space" d <> None)%R.
Proof.
  unfold parse_pre. intros H.
  apply bindM_ok in H as (d1 & cdir & P1 & H).
  apply bindM_ok in H as (d2 & mdir & P2 & H).
  apply bindM_ok in H as (d3 & dfile & P3 & H).
  apply bindM_ok in H as (d4 & rfile & P4 & H).
  apply bindM_ok in H as (d5 & tag & P5 & H).
  cbv zeta in H.
  do 8 (let x := fresh "x" in let G := fresh "G" in
        apply bindM_ok in H as (? & x & G & H); apply readM_ok in G as [-> G]).
  apply bindM_ok in H as (d6 & vl & V & H).
  apply bindM_ok in H as (d7 & nm & W & H).
  do 8 (let x := fresh "y" in let G := fresh "G" in
        apply bindM_ok in H as (? & x & G & H); apply readM_ok in G as [-> G]).
  apply bindM_ok in H as (d8 & cut & K & H).
  do 12 (let x := fresh "z" in let G := fresh "G" in
        apply bindM_ok in H as (? & x & G & H); apply readM_ok in G as [-> G]).
  injection H as <- <- <-. cbn [smp volume nmesh].
  assert (A5 : agree ["directories"; "files"; "tags"] d d5).
  { assert (B1 := writes_path "directories" "catalogues" ["directories"; "files"; "tags"] ltac:(inlist) d).
    assert (B2 := writes_path "directories" "measurements" ["directories"; "files"; "tags"] ltac:(inlist) d1).
    assert (B3 := writes_path "files" "data_catalogue" ["directories"; "files"; "tags"] ltac:(inlist) d2).
    assert (B4 := writes_path "files" "rand_catalogue" ["directories"; "files"; "tags"] ltac:(inlist) d3).
    assert (B5 := writes_path "tags" "output" ["directories"; "files"; "tags"] ltac:(inlist) d4).
    rewrite P1 in B1. rewrite P2 in B2. rewrite P3 in B3. rewrite P4 in B4. rewrite P5 in B5.
    cbn [fst] in *. eauto using agree_trans. }
  apply volume_after in V as (A6 & v & V1 & V2 & V3).
  apply nmesh_after in W as (A7 & w & W1 & W2 & W3).
  split; [|split].
  - rewrite <- (values_ext d d6 "boxsize"); [congruence|]. rewrite A6, A5 by notin. reflexivity.
  - rewrite <- (values_ext d d7 "ngrid"); [congruence|]. rewrite A7, A6, A5 by notin. reflexivity.
  - intros -> VP. unfold m_cutoff in K. cbn [Z.eqb] in K.
    assert (L : Rltb 0 vl = true) by now apply Rltb_spec.
    assert (X : dget "space" d = dget "space" d7) by (rewrite A7, A6, A5 by notin; reflexivity).
    rewrite X. intros NS.
    destruct (dget "cutoff_nyq" d7) as [c0|]; [|discriminate].
    assert (Z : forall y, (if Rltb 0 vl then bindM m_set_ngrid (fun _ => retM y) d7
                           else (d7, Ok y)) <> (d8, Ok cut)).
    { intros yy. rewrite L. intros Y. apply bindM_ok in Y as (? & ? & Y & _).
      unfold m_set_ngrid in Y. apply bindM_ok in Y as (? & ? & Y & _).
      unfold m_axis in Y. apply bindM_ok in Y as (? & ? & Y & _).
      apply readM_ok in Y as [_ Y]. unfold axis_cutoff in Y. rewrite NS in Y. discriminate. }
    destruct c0; try discriminate; cbn [to_float] in K; now apply Z in K.
Qed.

(** A box with grid numbers left to the cutoff: refused for want of an entry
    'space', which is only written by a successful validation. *)
Theorem cutoff_needs_space fuel e d x :
  dget "space" d = None ->
  match np_prod (values d "boxsize") with Some v => to_float v = Ok x | None => False end ->
  (0 < x)%R -> np_prod (values d "ngrid") = None ->
  exists d' err, construct fuel e d = (d', Err err).
Proof.
  intros S B X G. destruct (construct fuel e d) as [d' [[q pb]|err]] eqn:P; [exfalso|eauto].
  apply parse_ok in P as (d1 & p & P & _). apply pre_cutoff in P as (P1 & P2 & P3).
  rewrite G in P2. injection P2 as P2.
  destruct (np_prod (values d "boxsize")) as [v|]; [|contradiction].
  rewrite B in P1. injection P1 as P1. apply P3; [congruence|now rewrite <- P1|exact S].
Qed.

(* ------------------------------------------------------------------ *)
(** * Concrete sets *)

Definition demo_env : pyenv := {| lib := demo_build; str_other := fun _ => "?" |}.

Definition axes (a b c : pyval) : pyval := VDict [("x", a); ("y", b); ("z", c)].

(** A set for a simulation box of side 1000 on a grid of 64 cells a side. *)
Definition pdemo (st : string) (wisdom box : pyval) (nb : Z) : dict :=
  [("directories", VDict [("catalogues", VNone); ("measurements", VStr "out")]);
   ("boxsize", box); ("ngrid", axes (VInt 64) (VInt 64) (VInt 64));
   ("degrees", VDict [("ell1", VInt 0); ("ell2", VInt 0); ("ELL", VInt 0)]);
   ("wa_orders", VDict [("i", VNone); ("j", VNone)]);
   ("range", VList [VNum 1; VNum 2]); ("num_bins", VInt nb);
   ("catalogue_type", VStr "SIM"); ("statistic_type", VStr st);
   ("use_fftw_wisdom", wisdom); ("interlace", VStr "On"); ("progbar", VBool false)].

Definition side : pyval := VNum 1000.

Lemma lt_1_0 : Rltb 1 0 = false. Proof. apply Rltb_false; lra. Qed.
Lemma le_2_1 : Rleb 2 1 = false. Proof. apply Rleb_false; lra. Qed.

(** Running a concrete set: the checks on real numbers are kept apart. *)
Definition tail_result (h : params) : params :=
  {| pths := pths h;
     smp := if (npoint (msr h) =? "3pt") && (interlace (smp h) =? "true")
            then with_interlace "false" (smp h) else smp h;
     msr := msr h;
     msc := if ((statistic_type (msr h) =? "modes") || (statistic_type (msr h) =? "pairs"))
               && (save_binned_vectors (msc h) =? "")
            then with_bvec (default_bvec (measurement_dir (pths h)) (output_tag (pths h))) (msc h)
            else msc h |}.

Lemma run_parse fuel e c b d d1 p pb h :
  parse_pre e c b d = (d1, Ok (p, pb)) -> val_head (lib e) true p = Ok h ->
  (0 <? cells (ngrid (smp p)))%Z = true -> expand (smp p) = 1%R ->
  (alignment (smp h) =? "pad") = false ->
  bin_min (msr h) = 1%R -> bin_max (msr h) = 2%R ->
  parse fuel e c b d =
  (if (2 <=? num_bins (msr h))%Z && (idx_bin (msr h) =? 0)%Z && (binning (msr h) =? "lin")
   then bindM (m_fetch (tail_result h) pb) (fun _ => retM (tail_result h, pb))
   else fun d => parse fuel e c b d) (if (2 <=? num_bins (msr h))%Z && (idx_bin (msr h) =? 0)%Z
     && (binning (msr h) =? "lin") then d1 else d).
Proof.
  intros P H C E A B1 B2. destruct (_ && _) eqn:K; [|reflexivity].
  apply andb_true_iff in K as [K K3]. apply andb_true_iff in K as [K1 K2].
  apply Z.leb_le in K1. apply Z.eqb_eq in K2. apply String.eqb_eq in K3. apply Z.ltb_lt in C.
  assert (V : validate fuel (lib e) true p = Ok (tail_result h)).
  { rewrite (validate_direct fuel (lib e) true p h H);
      [|now right|intros _; rewrite E; lra|intros; lia].
    unfold val_tail, val_pad. rewrite A. cbn [bind].
    assert (X : val_bins (msr h) = Ok tt).
    { apply bins_ok. rewrite B1, B2, K2, K3. split; [lra|]. split; [exact K1|].
      split; [cbn; intuition discriminate|]. split; [lia|]. intros; lia. }
    rewrite X. reflexivity. }
  unfold parse. unfold bindM at 1. rewrite P. cbn [fst snd].
  unfold bindM at 1, readM, cpp_validate. rewrite V. reflexivity.
Qed.

Ltac run := cbn [dupdate]; erewrite run_parse; [|lazy -[Rmult IZR]; reflexivity
  |lazy -[Rmult IZR]; reflexivity|reflexivity|reflexivity|reflexivity|reflexivity|reflexivity];
  lazy -[Rmult IZR]; reflexivity.

(** Running a set whose number of bins is refused. *)
Lemma run_bad_bins fuel e c b d d1 p pb h :
  parse_pre e c b d = (d1, Ok (p, pb)) -> val_head (lib e) true p = Ok h ->
  (0 <? cells (ngrid (smp p)))%Z = true -> expand (smp p) = 1%R ->
  (alignment (smp h) =? "pad") = false ->
  bin_min (msr h) = 1%R -> bin_max (msr h) = 2%R -> (num_bins (msr h) <? 2)%Z = true ->
  parse fuel e c b d = (d1, Err ValueError).
Proof.
  intros P H C E A B1 B2 N. apply Z.ltb_lt in C.
  assert (V : validate fuel (lib e) true p = Err InvalidParameter).
  { rewrite (validate_direct fuel (lib e) true p h H);
      [|now right|intros _; rewrite E; lra|intros; lia].
    unfold val_tail, val_pad, val_bins. rewrite A. cbn [bind].
    now rewrite B1, B2, lt_1_0, le_2_1, N. }
  unfold parse. unfold bindM at 1. rewrite P. cbn [fst snd].
  unfold bindM at 1, readM, cpp_validate. now rewrite V.
Qed.

Definition built (o : outcome) (s : pset) : Prop := as_pset o = Ok s.

Ltac now_built := unfold built, construct, setitem, update; cbn [dupdate entries cpp bar]; run.

(** C30 fails: a rejected number of bins replaces the old one, and blocks all
    later assignments to other entries. *)
Theorem set_rollback_refuted : exists s d x,
  built (construct 0 demo_env (pdemo "powspec" (VBool false) (axes side side side) 10)) s /\
  getitem (entries s) "num_bins" = Ok (VInt 10) /\
  setitem 0 demo_env "num_bins" (VInt 1) s = (d, Err x) /\
  getitem d "num_bins" = Ok (VInt 1) /\
  forall c b j w, j <> "num_bins" -> exists d' x',
    setitem 0 demo_env j w {| entries := d; cpp := c; bar := b |} = (d', Err x').
Proof.
  eexists. eexists. eexists. split; [unfold built, construct; run|]. split; [reflexivity|].
  split; [unfold setitem, update; cbn [dupdate entries cpp bar];
          eapply run_bad_bins; [lazy -[Rmult IZR]; reflexivity|lazy -[Rmult IZR]; reflexivity
          |reflexivity..]|].
  split; [reflexivity|]. intros c b j w N.
  match goal with
  | |- exists d' x', setitem _ _ _ _ ?s = _ =>
      destruct (bad_bins_stuck 0 demo_env s 1 j w) as (d' & x' & H & _);
        [reflexivity|lia|exact N|now exists d', x']
  end.
Qed.

(** C30 fails: with wisdom on, the same assignment made twice gives different
    sets. *)
Theorem set_twice_refuted : exists s s' s'',
  built (construct 0 demo_env (pdemo "powspec" (VStr "Wis") (axes side side side) 10)) s /\
  built (setitem 0 demo_env "verbose" (VInt 20) s) s' /\
  built (setitem 0 demo_env "verbose" (VInt 20) s') s'' /\
  getitem (entries s) "use_fftw_wisdom" = Ok (VStr "wis/") /\
  getitem (entries s') "use_fftw_wisdom" = Ok (VStr "wis//") /\
  getitem (entries s'') "use_fftw_wisdom" = Ok (VStr "wis///").
Proof.
  eexists. eexists. eexists. split; [now_built|]. split; [now_built|]. split; [now_built|].
  repeat split.
Qed.

(** With wisdom off it is idempotent. *)
Example set_twice_case : exists s s',
  built (construct 0 demo_env (pdemo "powspec" (VBool false) (axes side side side) 10)) s /\
  built (setitem 0 demo_env "verbose" (VInt 20) s) s' /\
  built (setitem 0 demo_env "verbose" (VInt 20) s') s' /\
  getitem (entries s') "verbose" = Ok (VInt 20) /\
  getitem (entries s') "interlace" = Ok (VBool true) /\
  full_grid (entries s').
Proof.
  eexists. eexists. split; [now_built|]. split; [now_built|]. split; [now_built|]. split; [reflexivity|].
  split; [reflexivity|]. exists 64%Z, 64%Z, 64%Z. repeat split.
Qed.

(** A three-point set: interlacing asked for, accepted and off. *)
Example set_interlace_case : exists s,
  built (construct 0 demo_env (pdemo "bispec" (VBool false) (axes side side side) 10)) s /\
  getitem (entries s) "interlace" = Ok (VBool false) /\ interlace (smp (cpp s)) = "false".
Proof. eexists. split; [now_built|]. split; reflexivity. Qed.

(** C57 fails: taking back the box size is accepted and C++ keeps using the
    old one. *)
Theorem unset_box_refuted : exists s s',
  built (construct 0 demo_env (pdemo "powspec" (VBool false) (axes side side side) 10)) s /\
  built (setitem 0 demo_env "boxsize" (axes VNone VNone VNone) s) s' /\
  getitem (entries s') "boxsize" = Ok (axes VNone VNone VNone) /\
  getitem (entries s') "volume" = Ok (VNum 0) /\
  boxsize (smp (cpp s')) = T3 1000%R 1000%R 1000%R.
Proof. eexists. eexists. split; [now_built|]. split; [now_built|]. repeat split. Qed.

(** C57 fails: asking for binned vectors to be saved has no effect. *)
Theorem save_vectors_refuted : exists s s',
  built (construct 0 demo_env (pdemo "powspec" (VBool false) (axes side side side) 10)) s /\
  built (setitem 0 demo_env "save_binned_vectors" (VStr "vectors.dat") s) s' /\
  getitem (entries s') "save_binned_vectors" = Ok (VStr "vectors.dat") /\
  save_binned_vectors (msc (cpp s')) = "".
Proof. eexists. eexists. split; [now_built|]. split; [now_built|]. repeat split. Qed.

(** A progress-bar entry whose text is neither an integer nor true or false,
    such as "on" or the documented step in percentage points when it is a
    fraction, is never accepted. *)
Theorem progbar_refused fuel e v s :
  v <> VNone -> int_of_str (lower (py_str e v)) = None ->
  lower (py_str e v) <> "true" -> lower (py_str e v) <> "false" ->
  exists d x, setitem fuel e "progbar" v s = (d, Err x).
Proof.
  intros N I T F. destruct (setitem fuel e "progbar" v s) as [d [[q pb]|x]] eqn:H; [exfalso|eauto].
  apply parse_ok in H as (d1 & p & P & _ & W). cbn [dupdate] in P.
  assert (A := writes_pre e (cpp s) (bar s) (dset "progbar" v (entries s))).
  rewrite P in A. cbn [fst] in A. apply pre_inv in P as ([] & _).
  assert (E : pb = lower (py_str e v)).
  { revert rd_bar. unfold r_str. rewrite A, dget_dset_same by notin.
    destruct v; [contradiction|..]; congruence. }
  apply fetch_ok in W as []. rewrite E in sh_bar.
  destruct sh_bar as [(z & Z & _)|(_ & b & _ & B)]; [congruence|destruct b; congruence].
Qed.

(** It raises after everything has been written. *)
Theorem progbar_on_refuted : exists s d,
  built (construct 0 demo_env (pdemo "powspec" (VBool false) (axes side side side) 10)) s /\
  setitem 0 demo_env "progbar" (VStr "on") s = (d, Err RuntimeError) /\
  getitem d "progbar" = Ok (VStr "on").
Proof. eexists. eexists. split; [now_built|]. split; [unfold setitem, update; cbn [dupdate entries cpp bar]; run|]. reflexivity. Qed.

(** The box set, the grid left to a cutoff: KeyError. *)
Example cutoff_needs_space_case : exists d,
  construct 0 demo_env
    (dset "cutoff_nyq" (VNum 1) (dset "ngrid" (axes VNone VNone VNone)
       (pdemo "powspec" (VBool false) (axes (VInt 10) (VInt 10) (VInt 10)) 10))) = (d, Err KeyError) /\
  getitem d "volume" = Ok (VInt 1000).
Proof.
  eexists. split.
  - assert (L : Rltb 0 1000 = true) by (apply Rltb_spec; lra).
    assert (G : forall A B (m : M A) (f : A -> M B) d d1 a r,
              m d = (d1, Ok a) -> f a d1 = r -> bindM m f d = r)
      by (unfold bindM; intros ? ? ? ? ? ? ? ? -> E; exact E).
    unfold construct, parse. apply bindM_err. left. unfold parse_pre. cbv zeta.
    do 23 (eapply G; [lazy -[Rmult IZR]; reflexivity|cbv beta]).
    apply bindM_err. left. lazy -[Rmult IZR Rltb]. rewrite L. reflexivity.
  - reflexivity.
Qed.

Print Assumptions set_failed.
Print Assumptions set_failed_old.
Print Assumptions set_any.
Print Assumptions update_failed.
Print Assumptions update_any.
Print Assumptions bad_bins_stuck.
Print Assumptions bad_bins_rebuild.
Print Assumptions set_shows.
Print Assumptions set_interlace.
Print Assumptions set_twice.
Print Assumptions wisdom_grows.
Print Assumptions set_agrees.
Print Assumptions set_none_keeps.
Print Assumptions bvec_ignored.
Print Assumptions cutoff_needs_space.
Print Assumptions progbar_refused.
Print Assumptions set_rollback_refuted.
Print Assumptions set_twice_refuted.
Print Assumptions unset_box_refuted.
Print Assumptions save_vectors_refuted.
Print Assumptions progbar_on_refuted.
