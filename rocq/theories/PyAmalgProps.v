(* C31: what sampling and measurement overrides change, on dictionaries and
   on parameter sets, and what a measurement function makes of them. *)
From Coq Require Import String List ZArith Reals Bool Lia Lra.
From Verif Require Import Base StrModel Dec ArrayModel ArrayProofs MeshModel
  ParamModel ParamProps ParamValProps PyParamModel PyParamProofs PyParamAgainProps
  PyParamProps PyAmalgModel.
Import ListNotations.
#[local] Open Scope string_scope.

(* ------------------------------------------------------------------ *)
(** * Vocabulary *)

Definition one_of (k : string) (l : list string) : bool := existsb (String.eqb k) l.

(** The new value that sampling overrides [u] ask for under the key [k]. *)
Definition sampling_entry (u : dict) (k : string) : option pyval :=
  if one_of k ["expand"; "alignment"; "assignment"; "interlace"; "cutoff_nyq"] then dget k u
  else if one_of k ["boxsize"; "ngrid"] then
    match dget k u with
    | Some (VList l) => Some (VDict (combine ["x"; "y"; "z"] l))
    | _ => None
    end
  else if k =? "padscale" then
    match dget "gridpad" u, dget "boxpad" u with
    | Some _, _ => Some (VStr "grid")
    | None, Some _ => Some (VStr "box")
    | None, None => None
    end
  else if k =? "padfactor" then
    match dget "gridpad" u with Some v => Some v | None => dget "boxpad" u end
  else None.

(** The same for measurement overrides, entries with parts apart. *)
Definition measure_entry (u : dict) (k : string) : option pyval :=
  if one_of k ["idx_bin"; "form"; "num_bins"] then dget k u else None.

Definition degree_entry (u : dict) (k : string) : option pyval :=
  if one_of k ["ell1"; "ell2"; "ELL"] then dget k u else None.

Definition order_entry (u : dict) (k : string) : option pyval :=
  if k =? "i" then dget "i_wa" u else if k =? "j" then dget "j_wa" u else None.

Definition or_else {A} (a b : option A) : option A :=
  match a with Some v => Some v | None => b end.

(** Whether both kinds of padding are asked for. *)
Definition both_pads (u : dict) : Prop :=
  dget "boxpad" u <> None /\ dget "gridpad" u <> None.

(* ------------------------------------------------------------------ *)
(** * Steps on a dictionary *)

Lemma dupdate_app {A} (a b d : list (string * A)) : dupdate (a ++ b) d = dupdate b (dupdate a d).
Proof. revert d; induction a as [|[k v] a IH]; intros d; cbn; auto. Qed.

Lemma dget_app {A} k (a b : list (string * A)) :
  dget k (a ++ b) = or_else (dget k a) (dget k b).
Proof. induction a as [|[j v] a IH]; cbn; [reflexivity|]. now destruct (j =? k). Qed.

Lemma dget_dupdate {A} k (w d : list (string * A)) :
  dget k (dupdate w d) = or_else (dget k (rev w)) (dget k d).
Proof.
  revert d; induction w as [|[j v] w IH]; intros d; cbn; [reflexivity|].
  rewrite IH, dget_app. cbn. destruct (dget k (rev w)); cbn; [reflexivity|].
  destruct (j =? k) eqn:E.
  - apply String.eqb_eq in E. subst. apply dget_dset_same.
  - apply String.eqb_neq in E. apply dget_dset_other. congruence.
Qed.

Definition popl (ks : list string) (d : dict) : dict := fold_left (fun d k => dpop k d) ks d.

Lemma popl_nodup ks d : NoDup (map fst d) -> NoDup (map fst (popl ks d)).
Proof. revert d; induction ks as [|k ks IH]; intros d N; cbn; [exact N|]. now apply IH, dpop_nodup. Qed.

Lemma dget_popl k ks d : NoDup (map fst d) ->
  dget k (popl ks d) = if one_of k ks then None else dget k d.
Proof.
  revert d; induction ks as [|j ks IH]; intros d N; cbn; [reflexivity|].
  fold (popl ks (dpop j d)). rewrite IH by now apply dpop_nodup.
  unfold one_of. destruct (existsb (String.eqb k) ks); [now rewrite orb_true_r|].
  rewrite orb_false_r. destruct (k =? j) eqn:E.
  - apply String.eqb_eq in E. subst. now apply dget_dpop_same.
  - apply String.eqb_neq in E. now apply dget_dpop_other.
Qed.

Lemma pops_app a b df : pops (a ++ b) df = pops b (pops a df).
Proof. destruct df as [d|]; cbn; [|reflexivity]. now rewrite fold_left_app. Qed.

Lemma pops_nil df : pops [] df = df.
Proof. now destruct df. Qed.

Lemma assigns_plain kvs d : assigns plain kvs d = (dupdate kvs d, Ok tt).
Proof. revert d; induction kvs as [|[k v] r IH]; intros d; cbn; auto. Qed.

(** What one override writes and takes off the defaults. *)
Definition step_w (u : dict) (label : string) (make : pyval -> res (list (string * pyval))) : dict :=
  match dget label u with
  | Some v => match make v with Ok kvs => kvs | Err _ => [] end
  | None => []
  end.

Definition step_p (u : dict) (label : string) (ks : list string) : list string :=
  match dget label u with Some _ => ks | None => [] end.

Definition step_ok (u : dict) (label : string) (make : pyval -> res (list (string * pyval))) : Prop :=
  match dget label u with
  | Some v => exists kvs, make v = Ok kvs
  | None => True
  end.

Lemma override_plain u label make ks d df :
  override plain u label make ks d df =
  match dget label u with
  | Some v => match make v with
              | Err x => (d, df, Err x)
              | Ok _ => (dupdate (step_w u label make) d, pops (step_p u label ks) df, Ok tt)
              end
  | None => (dupdate (step_w u label make) d, pops (step_p u label ks) df, Ok tt)
  end.
Proof.
  unfold override, step_w, step_p. destruct (dget label u) as [v|]; [|now rewrite pops_nil].
  destruct (make v) as [kvs|x]; [|reflexivity]. now rewrite assigns_plain.
Qed.

Lemma override_ok u label make ks d df d' df' :
  override plain u label make ks d df = (d', df', Ok tt) ->
  step_ok u label make /\ d' = dupdate (step_w u label make) d /\ df' = pops (step_p u label ks) df.
Proof.
  rewrite override_plain. unfold step_ok. destruct (dget label u) as [v|].
  - destruct (make v) as [kvs|x]; [|discriminate]. intros [= <- <-]. eauto.
  - intros [= <- <-]. auto.
Qed.

Lemma override_run u label make ks d df : step_ok u label make ->
  override plain u label make ks d df =
  (dupdate (step_w u label make) d, pops (step_p u label ks) df, Ok tt).
Proof.
  rewrite override_plain. unfold step_ok. destruct (dget label u) as [v|]; [|reflexivity].
  intros (kvs & ->). reflexivity.
Qed.

Lemma andthen_ok {S} (r : run S) f s' df' :
  andthen r f = (s', df', Ok tt) ->
  exists s df, r = (s, df, Ok tt) /\ f s df = (s', df', Ok tt).
Proof. destruct r as [[s df] [[]|x]]; cbn; [eauto|discriminate]. Qed.

Lemma same_step u k j : dget j (rev (step_w u k (same k))) = if j =? k then dget k u else None.
Proof.
  unfold step_w, same. destruct (dget k u) as [v|]; cbn.
  - rewrite String.eqb_sym. now destruct (k =? j).
  - now destruct (j =? k).
Qed.

Lemma axes_step u k j : dget j (rev (step_w u k (zip_axes k))) =
  if j =? k then match dget k u with
                 | Some (VList l) => Some (VDict (combine ["x"; "y"; "z"] l))
                 | _ => None
                 end else None.
Proof.
  unfold step_w, zip_axes. rewrite String.eqb_sym.
  destruct (dget k u) as [[]|]; cbn [rev app dget]; destruct (k =? j); reflexivity.
Qed.

Lemma pad_step u lab name j :
  dget j (rev (step_w u lab (fun v => Ok [("padscale", VStr name); ("padfactor", v)]))) =
  match dget lab u with
  | Some v => if j =? "padfactor" then Some v
              else if j =? "padscale" then Some (VStr name) else None
  | None => None
  end.
Proof.
  unfold step_w. destruct (dget lab u) as [v|]; cbn [rev app dget]; [|reflexivity].
  now rewrite (String.eqb_sym j), (String.eqb_sym j).
Qed.

(* ------------------------------------------------------------------ *)
(** * Sampling overrides on a dictionary *)

Definition sampling_w (u : dict) : dict :=
  step_w u "expand" (same "expand") ++ step_w u "alignment" (same "alignment")
  ++ step_w u "boxpad" (fun v => Ok [("padscale", VStr "box"); ("padfactor", v)])
  ++ step_w u "gridpad" (fun v => Ok [("padscale", VStr "grid"); ("padfactor", v)])
  ++ step_w u "boxsize" (zip_axes "boxsize") ++ step_w u "ngrid" (zip_axes "ngrid")
  ++ step_w u "assignment" (same "assignment") ++ step_w u "interlace" (same "interlace")
  ++ step_w u "cutoff_nyq" (same "cutoff_nyq").

Definition sampling_p (u : dict) : list string :=
  step_p u "expand" ["expand"] ++ step_p u "alignment" ["alignment"]
  ++ step_p u "boxpad" ["padscale"; "padfactor"] ++ step_p u "gridpad" ["padscale"; "padfactor"]
  ++ step_p u "boxsize" ["boxsize"] ++ step_p u "ngrid" ["ngrid"]
  ++ step_p u "assignment" ["assignment"] ++ step_p u "interlace" ["interlace"]
  ++ step_p u "cutoff_nyq" ["cutoff_nyq"].

Lemma sampling_written u k : dget k (rev (sampling_w u)) = sampling_entry u k.
Proof.
  unfold sampling_w. rewrite !rev_app_distr, !dget_app, !same_step, !axes_step, !pad_step.
  unfold sampling_entry, one_of. cbn [existsb].
  repeat match goal with
         | |- context [k =? ?s] =>
             destruct (String.eqb_spec k s) as [->|];
               [cbn; destruct (dget "boxpad" u), (dget "gridpad" u); cbn;
                try reflexivity; repeat (match goal with |- context [dget ?a u] => destruct (dget a u) as [[]|] end; cbn);
                reflexivity|]
         end.
  cbn. now destruct (dget "boxpad" u), (dget "gridpad" u).
Qed.

Lemma one_of_app k a b : one_of k (a ++ b) = one_of k a || one_of k b.
Proof. apply existsb_app. Qed.

(** An axis override is usable if it is a sequence. *)
Definition axes_usable (u : dict) (k : string) : Prop :=
  match dget k u with Some (VList _) | None => True | Some _ => False end.

Lemma axes_step_ok u k : step_ok u k (zip_axes k) <-> axes_usable u k.
Proof.
  unfold step_ok, axes_usable, zip_axes. destruct (dget k u) as [[]|];
    (split; [intros H; try destruct H as (? & ?); try discriminate; exact I
            |intros H; try contradiction; eauto]).
Qed.

Lemma sampling_popped u k : axes_usable u "boxsize" -> axes_usable u "ngrid" ->
  one_of k (sampling_p u) = match sampling_entry u k with Some _ => true | None => false end.
Proof.
  intros B G. unfold sampling_p. rewrite !one_of_app. unfold step_p, axes_usable in *.
  unfold sampling_entry.
  assert (E : forall s w, one_of k (match dget s u with Some _ => w | None => [] end)
              = one_of k w && has s u)
    by (intros s w; unfold has; destruct (dget s u); cbn; now rewrite ?andb_true_r, ?andb_false_r).
  rewrite !E. clear E. unfold one_of. cbn [existsb]. rewrite !orb_false_r.
  repeat match goal with
         | |- context [k =? ?s] =>
             destruct (String.eqb_spec k s) as [->|];
               [cbn; unfold has;
                repeat (match goal with |- context [dget ?a u] => destruct (dget a u) as [[]|] end; cbn);
                try reflexivity; contradiction|]
         end.
  reflexivity.
Qed.

Definition pad_asked (u d : dict) : Prop :=
  or_else (dget "alignment" u) (dget "alignment" d) = Some (VStr "pad") /\ both_pads u.

Lemma pad_guard u d0 (d : dict) :
  dget "alignment" d0 = or_else (dget "alignment" u) (dget "alignment" d) ->
  (match dget "alignment" d0 with Some (VStr a) => a =? "pad" | _ => false end
     && has "boxpad" u && has "gridpad" u) = true <-> pad_asked u d.
Proof.
  intros E. rewrite E. unfold pad_asked, both_pads, has. rewrite !andb_true_iff.
  destruct (or_else _ _) as [[]|];
    try (split; [intros [[? ?] ?]; discriminate|intros [? ?]; discriminate]).
  rewrite String.eqb_eq. destruct (dget "boxpad" u), (dget "gridpad" u);
    (split; [intros [[-> ?] ?]; split; [reflexivity|]; split; congruence
            |intros [[= ->] [? ?]]; repeat split; congruence]).
Qed.

Lemma sampling_run u d df :
  match df with Some f => subdict f d = true | None => True end ->
  axes_usable u "boxsize" -> axes_usable u "ngrid" -> ~ pad_asked u d ->
  modify_sampling plain (Some u) d df = (dupdate (sampling_w u) d, pops (sampling_p u) df, Ok tt).
Proof.
  intros D B G P. unfold modify_sampling.
  assert (C : check_defaults plain d df = (d, df, Ok tt)).
  { unfold check_defaults. destruct df as [f|]; [|reflexivity]. cbn [read plain]. now rewrite D. }
  rewrite C. cbn [andthen].
  assert (SO : forall k, step_ok u k (same k)).
  { intros k. unfold step_ok, same. destruct (dget k u); eauto. }
  assert (PO : forall k n, step_ok u k (fun v => Ok [("padscale", VStr n); ("padfactor", v)])).
  { intros k n. unfold step_ok. destruct (dget k u); eauto. }
  rewrite (override_run u "expand") by apply SO. cbn [andthen].
  rewrite (override_run u "alignment") by apply SO. cbn [andthen].
  set (d0 := dupdate (step_w u "alignment" (same "alignment"))
               (dupdate (step_w u "expand" (same "expand")) d)).
  assert (A : dget "alignment" d0 = or_else (dget "alignment" u) (dget "alignment" d)).
  { subst d0. rewrite !dget_dupdate, !same_step. reflexivity. }
  cbn [read plain].
  destruct (match dget "alignment" d0 with Some (VStr a) => a =? "pad" | _ => false end
     && has "boxpad" u && has "gridpad" u) eqn:PG.
  { apply (pad_guard u d0 d A) in PG. contradiction. }
  cbn [andthen]. subst d0.
  rewrite (override_run u "boxpad") by apply PO. cbn [andthen].
  rewrite (override_run u "gridpad") by apply PO. cbn [andthen].
  rewrite (override_run u "boxsize") by now apply axes_step_ok. cbn [andthen].
  rewrite (override_run u "ngrid") by now apply axes_step_ok. cbn [andthen].
  rewrite (override_run u "assignment") by apply SO. cbn [andthen].
  rewrite (override_run u "interlace") by apply SO. cbn [andthen].
  rewrite (override_run u "cutoff_nyq") by apply SO.
  unfold sampling_w, sampling_p. rewrite !dupdate_app, !pops_app. reflexivity.
Qed.

Lemma sampling_ok u d df d' df' :
  modify_sampling plain (Some u) d df = (d', df', Ok tt) ->
  match df with Some f => subdict f d = true | None => True end /\
  axes_usable u "boxsize" /\ axes_usable u "ngrid" /\ ~ pad_asked u d.
Proof.
  unfold modify_sampling. intros H.
  apply andthen_ok in H as (d1 & f1 & C & H).
  assert (X : match df with Some f => subdict f d = true | None => True end /\ d1 = d /\ f1 = df).
  { unfold check_defaults in C. destruct df as [f|]; [|now injection C as <- <-].
    cbn [read plain] in C. destruct (subdict f d); [|discriminate]. now injection C as <- <-. }
  destruct X as (X & -> & ->). split; [exact X|].
  apply andthen_ok in H as (d2 & f2 & S2 & H). apply override_ok in S2 as (_ & S2 & _).
  apply andthen_ok in H as (d3 & f3 & S3 & H). apply override_ok in S3 as (_ & S3 & _).
  apply andthen_ok in H as (d4 & f4 & S4 & H).
  apply andthen_ok in H as (d5 & f5 & S5 & H).
  apply andthen_ok in H as (d6 & f6 & S6 & H).
  apply andthen_ok in H as (d7 & f7 & S7 & H). apply override_ok in S7 as (S7 & _).
  apply andthen_ok in H as (d8 & f8 & S8 & H). apply override_ok in S8 as (S8 & _).
  apply axes_step_ok in S7, S8. split; [exact S7|]. split; [exact S8|].
  intros PA. cbn [read plain] in S4.
  assert (A : dget "alignment" d3 = or_else (dget "alignment" u) (dget "alignment" d)).
  { subst d3 d2. rewrite !dget_dupdate, !same_step. reflexivity. }
  apply (pad_guard u d3 d A) in PA. rewrite PA in S4. discriminate.
Qed.

(* ------------------------------------------------------------------ *)
(** * C31, sampling *)

(** When sampling overrides are accepted. *)
Theorem sampling_accepted u d df :
  (exists d' df', modify_sampling plain (Some u) d df = (d', df', Ok tt)) <->
  match df with Some f => subdict f d = true | None => True end /\
  axes_usable u "boxsize" /\ axes_usable u "ngrid" /\ ~ pad_asked u d.
Proof.
  split.
  - intros (d' & df' & H). now apply sampling_ok in H.
  - intros (D & B & G & P). do 2 eexists. now apply sampling_run.
Qed.

(** Exactly the entries asked for change. *)
Theorem sampling_exact u d df d' df' :
  modify_sampling plain (Some u) d df = (d', df', Ok tt) ->
  forall k, dget k d' = or_else (sampling_entry u k) (dget k d).
Proof.
  intros H k. assert (O := sampling_ok _ _ _ _ _ H). destruct O as (D & B & G & P).
  rewrite sampling_run in H by assumption. injection H as <- <-.
  now rewrite dget_dupdate, sampling_written.
Qed.

(** The defaults left are those not asked for. *)
Theorem sampling_defaults u d f d' df' :
  modify_sampling plain (Some u) d (Some f) = (d', df', Ok tt) -> NoDup (map fst f) ->
  exists f', df' = Some f' /\ NoDup (map fst f') /\
    forall k, dget k f' = match sampling_entry u k with Some _ => None | None => dget k f end.
Proof.
  intros H N. assert (O := sampling_ok _ _ _ _ _ H). destruct O as (D & B & G & P).
  rewrite sampling_run in H by assumption. injection H as <- <-.
  cbn [pops]. fold (popl (sampling_p u) f). eexists. split; [reflexivity|].
  split; [now apply popl_nodup|]. intros k. rewrite dget_popl, sampling_popped by assumption.
  now destruct (sampling_entry u k).
Qed.

(** Asking for both kinds of padding is refused with alignment "pad", after
    the expansion and the alignment have been written. *)
Theorem both_pads_late u d :
  pad_asked u d -> exists d',
  modify_sampling plain (Some u) d None = (d', None, Err ValueError) /\
  forall k, dget k d' = if one_of k ["expand"; "alignment"]
                        then or_else (dget k u) (dget k d) else dget k d.
Proof.
  intros PA. unfold modify_sampling, check_defaults. cbn [andthen].
  assert (SO : forall k, step_ok u k (same k)).
  { intros k. unfold step_ok, same. destruct (dget k u); eauto. }
  rewrite (override_run u "expand") by apply SO. cbn [andthen].
  rewrite (override_run u "alignment") by apply SO. cbn [andthen].
  set (d0 := dupdate (step_w u "alignment" (same "alignment"))
               (dupdate (step_w u "expand" (same "expand")) d)).
  assert (A : dget "alignment" d0 = or_else (dget "alignment" u) (dget "alignment" d)).
  { subst d0. rewrite !dget_dupdate, !same_step. reflexivity. }
  cbn [read plain]. apply (pad_guard u d0 d A) in PA. rewrite PA. cbn [andthen pops].
  exists d0. split; [reflexivity|]. intros k. subst d0.
  rewrite !dget_dupdate, !same_step. unfold one_of. cbn [existsb].
  destruct (String.eqb_spec k "expand") as [->|]; [reflexivity|].
  destruct (String.eqb_spec k "alignment") as [->|]; reflexivity.
Qed.

(* ------------------------------------------------------------------ *)
(** * C31, measurement *)

(** An entry that is a dictionary takes the parts [e] and keeps the others;
    without parts to take it is unchanged, whatever it is. *)
Definition parts (outer : string) (labels : list (string * string)) (u d d' : dict) : Prop :=
  ((forall il, In il labels -> dget (snd il) u = None) -> dget outer d' = dget outer d) /\
  (forall f, dget outer d = Some (VDict f) -> exists f',
     dget outer d' = Some (VDict f') /\
     forall j, dget j f' = or_else (match dget j labels with
                                    | Some l => dget l u | None => None end) (dget j f)) /\
  ((exists il, In il labels /\ dget (snd il) u <> None) ->
     exists f, dget outer d = Some (VDict f)).

Definition degree_labels := [("ell1", "ell1"); ("ell2", "ell2"); ("ELL", "ELL")].
Definition order_labels := [("i", "i_wa"); ("j", "j_wa")].

Lemma poke_dict_ok u label outer inner d df d' df' :
  poke_dict plain u label outer inner d df = (d', df', Ok tt) ->
  df' = df /\ (forall k, k <> outer -> dget k d' = dget k d) /\
  parts outer [(inner, label)] u d d'.
Proof.
  unfold poke_dict, parts. cbn [read poke plain].
  destruct (dget label u) as [v|] eqn:L.
  - destruct (dget outer d) as [[]|] eqn:O; try discriminate. intros [= <- <-].
    split; [reflexivity|]. split; [intros k N; now apply dget_dset_other|].
    split; [intros N; specialize (N _ (or_introl eq_refl)); cbn in N; congruence|].
    split; [|eauto]. intros f [= <-]. rewrite dget_dset_same. eexists. split; [reflexivity|].
    intros j. cbn. destruct (String.eqb_spec inner j) as [->|N].
    + now rewrite dget_dset_same, L.
    + now rewrite dget_dset_other by congruence.
  - intros [= <- <-]. split; [reflexivity|]. split; [reflexivity|]. split; [reflexivity|].
    split.
    + intros f O. exists f. split; [exact O|]. intros j. cbn. now destruct (inner =? j); rewrite ?L.
    + intros (il & [<-|[]] & N). cbn in N. congruence.
Qed.

Lemma parts_app outer a b u d d1 d' :
  parts outer a u d d1 -> parts outer b u d1 d' ->
  (forall j, In j (map fst a) -> ~ In j (map fst b)) ->
  parts outer (a ++ b) u d d'.
Proof.
  intros (A1 & A2 & A3) (B1 & B2 & B3) X. split; [|split].
  - intros N. rewrite B1, A1; [reflexivity|intros il I; apply N, in_or_app; tauto..].
  - intros f F. destruct (A2 f F) as (f1 & F1 & G1). destruct (B2 f1 F1) as (f' & F' & G').
    exists f'. split; [exact F'|]. intros j. rewrite G', G1, dget_app.
    destruct (dget j a) as [l|] eqn:DA; cbn [or_else]; [|reflexivity].
    apply dget_in, (in_map fst), X, dget_none in DA. cbn [fst] in DA. rewrite DA. reflexivity.
  - intros (il & I & N). apply in_app_or in I as [I|I]; [now apply A3; eauto|].
    destruct B3 as (f1 & F1); [eauto|].
    destruct (forallb (fun il => match dget (snd il) u with None => true | _ => false end) a) eqn:E.
    + rewrite forallb_forall in E. rewrite A1 in F1; [now exists f1|].
      intros il' I'. specialize (E il' I'). now destruct (dget (snd il') u).
    + apply A3. revert E. clear. induction a as [|il a IH]; cbn; [discriminate|].
      destruct (dget (snd il) u) eqn:D.
      * intros _. exists il. split; [now left|congruence].
      * intros E. destruct (IH E) as (x & ? & ?). exists x. tauto.
Qed.

Lemma parts_frame outer labels u d d1 d2 d' :
  dget outer d1 = dget outer d -> dget outer d' = dget outer d2 ->
  parts outer labels u d1 d2 -> parts outer labels u d d'.
Proof. unfold parts. intros -> ->. auto. Qed.

(** The range takes its two limits. *)
Definition limits (u d d' : dict) : Prop :=
  (dget "bin_min" u = None -> dget "bin_max" u = None -> dget "range" d' = dget "range" d) /\
  (forall l, dget "range" d = Some (VList l) -> exists l',
     dget "range" d' = Some (VList l') /\ length l' = length l /\
     forall i, nth_error l' i =
       or_else (match i with O => dget "bin_min" u | 1%nat => dget "bin_max" u | _ => None end)
               (nth_error l i)).

Lemma list_set_spec {A} i (v : A) l l' : list_set i v l = Some l' ->
  length l' = length l /\
  forall j, nth_error l' j = if (j =? i)%nat then Some v else nth_error l j.
Proof.
  revert l l'; induction i as [|i IH]; intros [|x l] l'; cbn; try discriminate.
  - intros [= <-]. split; [reflexivity|]. now intros [|j].
  - destruct (list_set i v l) as [m|] eqn:E; [|discriminate]. intros [= <-].
    apply IH in E as [E1 E2]. cbn. split; [now rewrite E1|]. intros [|j]; cbn; [reflexivity|apply E2].
Qed.

Lemma poke_list_ok u label outer i d df d' df' :
  poke_list plain u label outer i d df = (d', df', Ok tt) ->
  df' = df /\ (forall k, k <> outer -> dget k d' = dget k d) /\
  (dget label u = None -> dget outer d' = dget outer d) /\
  (forall l, dget outer d = Some (VList l) -> exists l',
     dget outer d' = Some (VList l') /\ length l' = length l /\
     forall j, nth_error l' j = or_else (if (j =? i)%nat then dget label u else None) (nth_error l j)).
Proof.
  unfold poke_list. cbn [read poke plain]. destruct (dget label u) as [v|] eqn:L.
  - destruct (dget outer d) as [[]|] eqn:O; try discriminate.
    destruct (list_set i v l) as [l'|] eqn:S; [|discriminate]. intros [= <- <-].
    split; [reflexivity|]. split; [intros k N; now apply dget_dset_other|].
    split; [discriminate|]. intros m [= <-]. rewrite dget_dset_same. exists l'.
    apply list_set_spec in S as [S1 S2]. split; [reflexivity|]. split; [exact S1|].
    intros j. rewrite S2. now destruct (j =? i)%nat.
  - intros [= <- <-]. split; [reflexivity|]. split; [reflexivity|]. split; [reflexivity|].
    intros l O. exists l. split; [exact O|]. split; [reflexivity|].
    intros j. now destruct (j =? i)%nat.
Qed.

Lemma override_same_ok u k d df d' df' :
  override plain u k (same k) [k] d df = (d', df', Ok tt) ->
  (forall j, dget j d' = if j =? k then or_else (dget k u) (dget k d) else dget j d) /\
  df' = pops (step_p u k [k]) df.
Proof.
  intros H. apply override_ok in H as (_ & -> & ->). split; [|reflexivity].
  intros j. rewrite dget_dupdate, same_step. now destruct (String.eqb_spec j k) as [->|].
Qed.

(** Exactly the entries and parts asked for change, and the defaults lose the
    entries (not the parts) asked for. *)
Theorem measure_exact u d df d' df' :
  modify_measurement plain (Some u) d df = (d', df', Ok tt) ->
  (forall k, ~ In k ["degrees"; "wa_orders"; "range"] ->
     dget k d' = or_else (measure_entry u k) (dget k d)) /\
  parts "degrees" degree_labels u d d' /\ parts "wa_orders" order_labels u d d' /\
  limits u d d' /\
  match df, df' with
  | Some f, Some f' => NoDup (map fst f) -> NoDup (map fst f') /\
      forall k, dget k f' = match measure_entry u k with Some _ => None | None => dget k f end
  | None, None => True
  | _, _ => False
  end.
Proof.
  unfold modify_measurement. intros H.
  apply andthen_ok in H as (d1 & f1 & C & H).
  assert (X : d1 = d /\ f1 = df).
  { unfold check_defaults in C. destruct df as [f|]; [|now injection C as <- <-].
    destruct (subdict f (read plain d)); [|discriminate]. now injection C as <- <-. }
  destruct X as (-> & ->). clear C.
  apply andthen_ok in H as (d2 & f2 & S2 & H). apply poke_dict_ok in S2 as (-> & F2 & P2).
  apply andthen_ok in H as (d3 & f3 & S3 & H). apply poke_dict_ok in S3 as (-> & F3 & P3).
  apply andthen_ok in H as (d4 & f4 & S4 & H). apply poke_dict_ok in S4 as (-> & F4 & P4).
  apply andthen_ok in H as (d5 & f5 & S5 & H). apply poke_dict_ok in S5 as (-> & F5 & P5).
  apply andthen_ok in H as (d6 & f6 & S6 & H). apply poke_dict_ok in S6 as (-> & F6 & P6).
  apply andthen_ok in H as (d7 & f7 & S7 & H). apply override_same_ok in S7 as (F7 & ->).
  apply andthen_ok in H as (d8 & f8 & S8 & H). apply override_same_ok in S8 as (F8 & ->).
  apply andthen_ok in H as (d9 & f9 & S9 & H). apply poke_list_ok in S9 as (-> & F9 & U9 & L9).
  apply andthen_ok in H as (d10 & f10 & S10 & H).
  apply poke_list_ok in S10 as (-> & F10 & U10 & L10).
  apply override_same_ok in H as (F11 & ->).
  assert (K : forall k, ~ In k ["degrees"; "wa_orders"; "range"] -> ~ In k ["idx_bin"; "form"; "num_bins"] ->
              dget k d' = dget k d).
  { intros k N M. cbn in N, M.
    assert (k <> "degrees" /\ k <> "wa_orders" /\ k <> "range") as (Q1 & Q2 & Q3)
      by (split; [|split]; intros ->; tauto).
    rewrite F11. destruct (String.eqb_spec k "num_bins"); [exfalso; auto 6|].
    rewrite F10, F9 by auto.
    rewrite F8. destruct (String.eqb_spec k "form"); [exfalso; auto 6|].
    rewrite F7. destruct (String.eqb_spec k "idx_bin"); [exfalso; auto 6|].
    rewrite F6, F5, F4, F3, F2 by auto. reflexivity. }
  split.
  { intros k N. unfold measure_entry, one_of. cbn [existsb].
    destruct (String.eqb_spec k "idx_bin") as [->|N1].
    { rewrite F11. cbn. rewrite F10, F9 by discriminate. rewrite F8. cbn. rewrite F7. cbn.
      now rewrite F6, F5, F4, F3, F2 by discriminate. }
    destruct (String.eqb_spec k "form") as [->|N2].
    { rewrite F11. cbn. rewrite F10, F9 by discriminate. rewrite F8. cbn. rewrite F7. cbn.
      now rewrite F6, F5, F4, F3, F2 by discriminate. }
    destruct (String.eqb_spec k "num_bins") as [->|N3].
    { rewrite F11. cbn. rewrite F10, F9 by discriminate. rewrite F8. cbn. rewrite F7. cbn.
      now rewrite F6, F5, F4, F3, F2 by discriminate. }
    cbn. apply K; [exact N|]. cbn. intros [E|[E|[E|[]]]]; congruence. }
  split.
  { apply (parts_frame _ _ _ d d d4); [reflexivity| |].
    { rewrite F11. cbn. rewrite F10, F9 by discriminate. rewrite F8. cbn. rewrite F7. cbn.
      now rewrite F6, F5 by discriminate. }
    apply (parts_app "degrees" [("ell1", "ell1"); ("ell2", "ell2")] [("ELL", "ELL")] u d d3 d4).
    - apply (parts_app "degrees" [("ell1", "ell1")] [("ell2", "ell2")] u d d2 d3); auto.
      cbn. intros j [<-|[]] [E|[]]. discriminate.
    - exact P4.
    - cbn. intros j [<-|[<-|[]]] [E|[]]; discriminate. }
  split.
  { apply (parts_frame _ _ _ d d4 d6).
    { now rewrite F4, F3, F2 by discriminate. }
    { rewrite F11. cbn. rewrite F10, F9 by discriminate. rewrite F8. cbn. rewrite F7. reflexivity. }
    apply (parts_app "wa_orders" [("i", "i_wa")] [("j", "j_wa")] u d4 d5 d6); auto.
    cbn. intros j [<-|[]] [E|[]]. discriminate. }
  assert (R8 : dget "range" d8 = dget "range" d).
  { rewrite F8. cbn. rewrite F7. cbn. now rewrite F6, F5, F4, F3, F2 by discriminate. }
  assert (R11 : dget "range" d' = dget "range" d10) by (rewrite F11; reflexivity).
  split.
  { split.
    - intros A B. now rewrite R11, U10, U9.
    - intros l L. rewrite <- R8 in L. destruct (L9 l L) as (l1 & E1 & Q1 & G1).
      destruct (L10 l1 E1) as (l2 & E2 & Q2 & G2). exists l2. rewrite R11.
      split; [exact E2|]. split; [congruence|]. intros i. rewrite G2, G1.
      destruct i as [|[|i]]; reflexivity. }
  destruct df as [f|]; [|exact I].
  cbn [pops]. intros N.
  change (NoDup (map fst (popl (step_p u "num_bins" ["num_bins"])
     (popl (step_p u "form" ["form"]) (popl (step_p u "idx_bin" ["idx_bin"]) f)))) /\
    forall k, dget k (popl (step_p u "num_bins" ["num_bins"])
     (popl (step_p u "form" ["form"]) (popl (step_p u "idx_bin" ["idx_bin"]) f))) =
     match measure_entry u k with Some _ => None | None => dget k f end).
  split; [now repeat apply popl_nodup|]. intros k.
  rewrite !dget_popl by (repeat apply popl_nodup; exact N).
  unfold step_p, measure_entry, one_of. cbn [existsb].
  destruct (String.eqb_spec k "idx_bin") as [->|]; [cbn; destruct (dget "idx_bin" u), (dget "form" u), (dget "num_bins" u); reflexivity|].
  destruct (String.eqb_spec k "form") as [->|]; [cbn; destruct (dget "idx_bin" u), (dget "form" u), (dget "num_bins" u); reflexivity|].
  destruct (String.eqb_spec k "num_bins") as [->|]; [cbn; destruct (dget "idx_bin" u), (dget "form" u), (dget "num_bins" u); reflexivity|].
  cbn. destruct (dget "idx_bin" u), (dget "form" u), (dget "num_bins" u); cbn;
    repeat match goal with |- context [k =? ?s] => destruct (String.eqb_spec k s); [contradiction|] end;
    reflexivity.
Qed.

(* ------------------------------------------------------------------ *)
(** * Measurements without a parameter set *)

Lemma val_eqb_scalar v :
  match v with VNone | VBool _ | VInt _ | VNum _ | VStr _ => True | _ => False end ->
  val_eqb v v = true.
Proof.
  destruct v as [|b|z|x|s|l|f]; cbn; intros H; try contradiction; try reflexivity;
    try (apply Reqb_spec; reflexivity). apply String.eqb_refl.
Qed.

Lemma subdict_intro f d :
  (forall k v, In (k, v) f -> dget k d = Some v /\ val_eqb v v = true) -> subdict f d = true.
Proof.
  intros H. unfold subdict. apply forallb_forall. intros [k v] I. cbn [fst snd].
  destruct (H k v I) as [-> E]. exact E.
Qed.

Lemma nodup_get {A} k v (d : list (string * A)) : NoDup (map fst d) -> In (k, v) d -> dget k d = Some v.
Proof.
  induction d as [|[j w] d IH]; cbn; [contradiction|]. intros N I.
  inversion N as [|? ? N1 N2]; subst. destruct I as [[= -> ->]|I]; [now rewrite String.eqb_refl|].
  destruct (String.eqb_spec j k) as [->|]; [|now apply IH].
  exfalso. apply N1. apply in_map_iff. now exists (k, v).
Qed.

Definition ftemplate : dict := Eval cbv in defaults_of template.

Lemma ftemplate_nodup : NoDup (map fst (defaults_of template)).
Proof.
  change (defaults_of template) with ftemplate.
  repeat (constructor; [apply not_in_list; reflexivity|]). constructor.
Qed.

Lemma ftemplate_scalar k v : In (k, v) (defaults_of template) ->
  dget k template = Some v /\ val_eqb v v = true.
Proof.
  intros I. change (In (k, v) ftemplate) in I. cbn in I.
  repeat (destruct I as [[= <- <-]|I]; [split; [reflexivity|now apply val_eqb_scalar]|]).
  contradiction.
Qed.

(** Measurement overrides go through when the entries with parts are in
    shape. *)
Lemma measure_run u d df :
  match df with Some f => subdict f d = true | None => True end ->
  (exists f, dget "degrees" d = Some (VDict f)) -> (exists f, dget "wa_orders" d = Some (VDict f)) ->
  (exists x y l, dget "range" d = Some (VList (x :: y :: l))) ->
  exists d' df', modify_measurement plain (Some u) d df = (d', df', Ok tt).
Proof.
  intros D DG WA RG. unfold modify_measurement.
  assert (C : check_defaults plain d df = (d, df, Ok tt)).
  { unfold check_defaults. destruct df as [f|]; [|reflexivity]. cbn [read plain]. now rewrite D. }
  rewrite C. clear C D. cbn [andthen].
  assert (PD : forall label outer inner d df, (exists f, dget outer d = Some (VDict f)) ->
     exists d', poke_dict plain u label outer inner d df = (d', df, Ok tt) /\
       (exists f, dget outer d' = Some (VDict f)) /\ forall k, k <> outer -> dget k d' = dget k d).
  { intros label outer inner e ef (f & F). unfold poke_dict. cbn [read poke plain].
    destruct (dget label u) as [v|]; [|eauto 6]. rewrite F. eexists. split; [reflexivity|].
    split; [rewrite dget_dset_same; eauto|]. intros k N. now apply dget_dset_other. }
  assert (PL : forall label i d df, (i < 2)%nat ->
     (exists x y l, dget "range" d = Some (VList (x :: y :: l))) ->
     exists d', poke_list plain u label "range" i d df = (d', df, Ok tt) /\
       (exists x y l, dget "range" d' = Some (VList (x :: y :: l))) /\
       forall k, k <> "range" -> dget k d' = dget k d).
  { intros label i e ef I (x & y & l & F). unfold poke_list. cbn [read poke plain].
    destruct (dget label u) as [v|]; [|eauto 8]. rewrite F.
    destruct i as [|[|i]]; [| |lia]; cbn [list_set]; eexists; (split; [reflexivity|]);
      (split; [rewrite dget_dset_same; eauto|]); intros k N; now apply dget_dset_other. }
  assert (OS : forall k d df, exists d' df', override plain u k (same k) [k] d df = (d', df', Ok tt) /\
     forall j, j <> k -> dget j d' = dget j d).
  { intros k e ef. rewrite override_run by (unfold step_ok, same; destruct (dget k u); eauto).
    do 2 eexists. split; [reflexivity|]. intros j N. rewrite dget_dupdate, same_step.
    now destruct (String.eqb_spec j k). }
  destruct (PD "ell1" "degrees" "ell1" d df DG) as (d1 & -> & DG1 & F1). cbn [andthen].
  destruct (PD "ell2" "degrees" "ell2" d1 df DG1) as (d2 & -> & DG2 & F2). cbn [andthen].
  destruct (PD "ELL" "degrees" "ELL" d2 df DG2) as (d3 & -> & DG3 & F3). cbn [andthen].
  rewrite <- F1, <- F2, <- F3 in WA, RG by discriminate.
  destruct (PD "i_wa" "wa_orders" "i" d3 df WA) as (d4 & -> & WA4 & F4). cbn [andthen].
  destruct (PD "j_wa" "wa_orders" "j" d4 df WA4) as (d5 & -> & WA5 & F5). cbn [andthen].
  rewrite <- F4, <- F5 in RG by discriminate.
  destruct (OS "idx_bin" d5 df) as (d6 & f6 & -> & F6). cbn [andthen].
  destruct (OS "form" d6 f6) as (d7 & f7 & -> & F7). cbn [andthen].
  rewrite <- F6, <- F7 in RG by discriminate.
  destruct (PL "bin_min" 0%nat d7 f7 ltac:(lia) RG) as (d8 & -> & RG8 & F8). cbn [andthen].
  destruct (PL "bin_max" 1%nat d8 f7 ltac:(lia) RG8) as (d9 & -> & RG9 & F9). cbn [andthen].
  destruct (OS "num_bins" d9 f7) as (d10 & f10 & -> & F10). eauto.
Qed.

(** Without a parameter set a measurement needs enough arguments, sequences
    for the axes and not both kinds of padding. *)
Theorem template_accepted enough u a types :
  (exists r, amalgamate_new enough (Some u) a types = Ok r) <->
  enough (Some u) a = true /\ axes_usable u "boxsize" /\ axes_usable u "ngrid" /\
  ~ (dget "alignment" u = Some (VStr "pad") /\ both_pads u).
Proof.
  assert (TS : subdict (defaults_of template) template = true)
    by (apply subdict_intro; exact ftemplate_scalar).
  assert (PA : pad_asked u template <-> dget "alignment" u = Some (VStr "pad") /\ both_pads u).
  { unfold pad_asked. cbn [dget template String.eqb]. destruct (dget "alignment" u) as [v|]; cbn; [reflexivity|].
    split; intros [X _]; discriminate. }
  unfold amalgamate_new, overrides. split.
  - intros (r & H). destruct (enough (Some u) a); [|discriminate]. split; [reflexivity|].
    destruct (andthen _ _) as [[d df] [[]|x]] eqn:E; [|discriminate].
    apply andthen_ok in E as (d1 & f1 & E & _). apply sampling_ok in E as (_ & B & G & P).
    rewrite PA in P. auto.
  - intros (-> & B & G & P). rewrite <- PA in P.
    assert (R := sampling_run u template (Some (defaults_of template)) TS B G P).
    rewrite R. cbn [andthen].
    assert (X := sampling_exact _ _ _ _ _ R).
    destruct (sampling_defaults _ _ _ _ _ R ftemplate_nodup) as (f & F1 & F2 & F3).
    destruct (measure_run (measure_dict a) (dupdate (sampling_w u) template)
                (pops (sampling_p u) (Some (defaults_of template)))) as (d' & df' & ->); eauto.
    + rewrite F1. apply subdict_intro. intros k v I.
      assert (I' := nodup_get _ _ _ F2 I). rewrite F3 in I'.
      rewrite X. destruct (sampling_entry u k); [discriminate|]. cbn [or_else].
      apply ftemplate_scalar. now apply dget_in.
    + rewrite X. eexists. reflexivity.
    + rewrite X. eexists. reflexivity.
    + rewrite X. do 3 eexists. reflexivity.
Qed.

Lemma sampling_nested u k : In k ["degrees"; "wa_orders"; "range"] -> sampling_entry u k = None.
Proof. intros [<-|[<-|[<-|[]]]]; reflexivity. Qed.

Lemma overrides_exact u a d0 F d f types :
  overrides plain (Some u) a d0 (Some F) = (d, f, Ok tt) -> NoDup (map fst F) ->
  NoDup (map fst types) ->
  (forall k, In k (map fst types) -> In k ["catalogue_type"; "statistic_type"]) ->
  (forall k v, In (k, v) types -> dget k (dupdate types d) = Some v) /\
  (forall k, ~ In k (map fst types) -> ~ In k ["degrees"; "wa_orders"; "range"] ->
     dget k (dupdate types d) = or_else (measure_entry (measure_dict a) k)
                                  (or_else (sampling_entry u k) (dget k d0))) /\
  parts "degrees" degree_labels (measure_dict a) d0 (dupdate types d) /\
  parts "wa_orders" order_labels (measure_dict a) d0 (dupdate types d) /\
  limits (measure_dict a) d0 (dupdate types d) /\
  exists f', f = Some f' /\ forall k v, dget k f' = Some v <->
    dget k F = Some v /\ sampling_entry u k = None /\ measure_entry (measure_dict a) k = None.
Proof.
  intros E NF ND TT. unfold overrides in E.
  apply andthen_ok in E as (d1 & f1 & E1 & E2). revert E2. generalize (measure_dict a). intros m E2.
  assert (X := sampling_exact _ _ _ _ _ E1).
  assert (XN : forall k, In k ["degrees"; "wa_orders"; "range"] -> dget k d1 = dget k d0).
  { intros k I. rewrite X, sampling_nested by exact I. reflexivity. }
  destruct (sampling_defaults _ _ _ _ _ E1 NF) as (g & -> & F2 & F3).
  apply measure_exact in E2 as (M1 & M2 & M3 & M4 & M5).
  assert (TD : forall k, ~ In k ["catalogue_type"; "statistic_type"] -> dget k (dupdate types d) = dget k d).
  { intros k N. apply dget_dupdate_other. intros I. now apply N, TT. }
  split; [intros k v I; now apply dget_dupdate_in|].
  split. { intros k N N'. rewrite dget_dupdate_other by exact N. rewrite M1 by exact N'. now rewrite X. }
  split. { apply (parts_frame _ _ _ d0 d1 d); [apply XN; cbn; tauto| |exact M2]. apply TD. notin. }
  split. { apply (parts_frame _ _ _ d0 d1 d); [apply XN; cbn; tauto| |exact M3]. apply TD. notin. }
  split. { unfold limits in *. rewrite TD by notin. rewrite XN in M4 by (cbn; tauto). exact M4. }
  destruct f as [f2|]; [|contradiction]. destruct (M5 F2) as [_ M6]. exists f2. split; [reflexivity|].
  intros k v. rewrite M6, F3.
  destruct (measure_entry m k); [split; [discriminate|intros (_ & _ & ?); discriminate]|].
  destruct (sampling_entry u k); [split; [discriminate|intros (_ & ? & _); discriminate]|]. tauto.
Qed.

(** It then has the template with the overrides and the types, and warns of
    exactly the untouched defaults. *)
Theorem template_exact enough u a types d df :
  amalgamate_new enough (Some u) a types = Ok (d, df) -> NoDup (map fst types) ->
  (forall k, In k (map fst types) -> In k ["catalogue_type"; "statistic_type"]) ->
  (forall k v, In (k, v) types -> dget k d = Some v) /\
  (forall k, ~ In k (map fst types) -> ~ In k ["degrees"; "wa_orders"; "range"] ->
     dget k d = or_else (measure_entry (measure_dict a) k)
                  (or_else (sampling_entry u k) (dget k template))) /\
  parts "degrees" degree_labels (measure_dict a) template d /\
  parts "wa_orders" order_labels (measure_dict a) template d /\
  limits (measure_dict a) template d /\
  exists f, df = Some f /\ forall k v, dget k f = Some v <->
    dget k (defaults_of template) = Some v /\ sampling_entry u k = None /\
    measure_entry (measure_dict a) k = None.
Proof.
  intros H. unfold amalgamate_new in H. destruct (enough (Some u) a); [|discriminate].
  destruct (overrides plain (Some u) a template (Some (defaults_of template))) as [[d2 df2] [[]|x]] eqn:E;
    [|discriminate]. injection H as <- <-.
  intros ND TT. exact (overrides_exact u a template _ d2 df2 types E ftemplate_nodup ND TT).
Qed.

(** What the measurement arguments ask for. *)
Lemma measure_dict_get a : m_degree a = None \/ m_degrees a = None ->
  let m := measure_dict a in
  dget "ell1" m = option_map (fun t => VInt (fst (fst t))) (m_degrees a) /\
  dget "ell2" m = option_map (fun t => VInt (snd (fst t))) (m_degrees a) /\
  dget "ELL" m = or_else (option_map VInt (m_degree a)) (option_map (fun t => VInt (snd t)) (m_degrees a)) /\
  dget "i_wa" m = option_map (fun t => VInt (fst t)) (m_orders a) /\
  dget "j_wa" m = option_map (fun t => VInt (snd t)) (m_orders a) /\
  dget "bin_min" m = option_map (fun t => VNum (fst (fst t))) (m_binning a) /\
  dget "bin_max" m = option_map (fun t => VNum (snd (fst t))) (m_binning a) /\
  dget "num_bins" m = option_map (fun t => VInt (snd t)) (m_binning a) /\
  dget "form" m = option_map VStr (m_form a) /\ dget "idx_bin" m = option_map VInt (m_idx a).
Proof.
  destruct a as [[[[l1 l2] l]|] [n|] [[i j]|] [[[lo hi] nb]|] [fo|] [ix|]]; cbn;
    intros [E|E]; try discriminate; repeat split.
Qed.

(* ------------------------------------------------------------------ *)
(** * Overrides on a parameter set *)

(** What parsing derives or normalises. *)
Definition owned : list string := (scratch ++ fetched)%list.

Definition sim (o : outcome) (d : dict) : Prop := agree owned d (fst o).

Definition run_sim (r : run outcome) (p : run dict) : Prop :=
  forall o df, r = (o, df, Ok tt) -> df = None /\ exists d, p = (d, None, Ok tt) /\ sim o d.

Lemma andthen_sim r p f g :
  run_sim r p -> (forall o d, sim o d -> run_sim (f o None) (g d None)) ->
  run_sim (andthen r f) (andthen p g).
Proof.
  intros A B o df H. apply andthen_ok in H as (o1 & df1 & H1 & H2).
  destruct (A _ _ H1) as (-> & d1 & -> & S1). cbn [andthen]. exact (B o1 d1 S1 _ _ H2).
Qed.

Lemma assign_sim fuel e k v o o' d :
  assign (pset_like fuel e) k v o = (o', Ok tt) -> sim o d -> sim o' (dset k v d).
Proof.
  cbn [assign pset_like]. destruct o as [d0 [[q pb]|x]]; [|discriminate].
  destruct (setitem _ _ _ _ _) as [d1 [w|x]] eqn:E; cbn [snd]; [|discriminate].
  intros [= <-] S j N.
  unfold setitem, update in E. cbn [dupdate entries cpp bar] in E. apply parse_agree in E.
  cbn [fst]. rewrite (E j N). destruct (String.eqb_spec j k) as [->|NE].
  - now rewrite !dget_dset_same.
  - rewrite !dget_dset_other by exact NE. exact (S j N).
Qed.

Lemma assigns_sim fuel e kvs o o' d :
  assigns (pset_like fuel e) kvs o = (o', Ok tt) -> sim o d -> sim o' (dupdate kvs d).
Proof.
  revert o d; induction kvs as [|[k v] r IH]; intros o d; cbn [assigns dupdate]; [now intros [= <-]|].
  destruct (assign _ k v o) as [o1 [[]|x]] eqn:A; [|discriminate].
  intros H S. apply (IH o1); [exact H|]. eapply assign_sim; eauto.
Qed.

Lemma override_sim fuel e u label make ks o d : sim o d ->
  run_sim (override (pset_like fuel e) u label make ks o None) (override plain u label make ks d None).
Proof.
  intros S o' df'. unfold override. destruct (dget label u) as [v|].
  2:{ intros [= <- <-]. eauto. }
  destruct (make v) as [kvs|x]; [|discriminate].
  destruct (assigns (pset_like fuel e) kvs o) as [o1 [[]|x]] eqn:A; [|discriminate].
  intros [= <- <-]. rewrite assigns_plain. split; [reflexivity|]. eexists. split; [reflexivity|]. eapply assigns_sim; eauto.
Qed.

Lemma poke_dict_sim fuel e u label outer inner o d : ~ In outer owned -> sim o d ->
  run_sim (poke_dict (pset_like fuel e) u label outer inner o None) (poke_dict plain u label outer inner d None).
Proof.
  intros N S o' df'. unfold poke_dict. cbn [read poke pset_like plain].
  destruct (dget label u) as [v|]; [|intros [= <- <-]; eauto].
  rewrite (S outer N). destruct (dget outer d) as [[]|]; try discriminate. intros [= <- <-].
  split; [reflexivity|]. eexists. split; [reflexivity|]. intros j J. cbn [fst].
  destruct (String.eqb_spec j outer) as [->|NE].
  - now rewrite !dget_dset_same.
  - rewrite !dget_dset_other by exact NE. exact (S j J).
Qed.

Lemma poke_list_sim fuel e u label outer i o d : ~ In outer owned -> sim o d ->
  run_sim (poke_list (pset_like fuel e) u label outer i o None) (poke_list plain u label outer i d None).
Proof.
  intros N S o' df'. unfold poke_list. cbn [read poke pset_like plain].
  destruct (dget label u) as [v|]; [|intros [= <- <-]; eauto].
  rewrite (S outer N). destruct (dget outer d) as [[]|]; try discriminate.
  destruct (list_set i v l) as [l'|]; [|discriminate]. intros [= <- <-].
  split; [reflexivity|]. eexists. split; [reflexivity|]. intros j J. cbn [fst].
  destruct (String.eqb_spec j outer) as [->|NE].
  - now rewrite !dget_dset_same.
  - rewrite !dget_dset_other by exact NE. exact (S j J).
Qed.

Lemma sampling_sim fuel e u o d : sim o d ->
  run_sim (modify_sampling (pset_like fuel e) u o None) (modify_sampling plain u d None).
Proof.
  intros S. unfold modify_sampling. destruct u as [u|]; [|intros o' df' [= <- <-]; eauto].
  unfold check_defaults. cbn [andthen].
  apply andthen_sim; [now apply override_sim|]. clear o d S. intros o d S.
  apply andthen_sim; [now apply override_sim|]. clear o d S. intros o d S.
  apply andthen_sim.
  { intros o' df'. cbn [read pset_like plain]. rewrite (S "alignment") by notin.
    destruct (_ && _); [discriminate|]. intros [= <- <-]. eauto. }
  clear o d S. intros o d S.
  do 6 (apply andthen_sim; [now apply override_sim|]; clear o d S; intros o d S).
  now apply override_sim.
Qed.

Lemma overrides_sim fuel e u a o d : sim o d ->
  run_sim (overrides (pset_like fuel e) u a o None) (overrides plain u a d None).
Proof.
  intros S. unfold overrides. apply andthen_sim; [now apply sampling_sim|].
  clear o d S. intros o d S. unfold modify_measurement, check_defaults. cbn [andthen].
  do 5 (apply andthen_sim; [apply poke_dict_sim; [notin|exact S]|]; clear o d S; intros o d S).
  do 2 (apply andthen_sim; [now apply override_sim|]; clear o d S; intros o d S).
  do 2 (apply andthen_sim; [apply poke_list_sim; [notin|exact S]|]; clear o d S; intros o d S).
  now apply override_sim.
Qed.

(** After a measurement has taken a caller's parameter set, every entry of
    that set which is not derived or normalised is as the types, the
    measurement arguments or the sampling overrides say, or as it was. *)
Theorem set_exact fuel e u a types o o' :
  amalgamate_set fuel e (Some u) a types o = (o', Ok tt) -> NoDup (map fst types) ->
  (forall k, In k (map fst types) -> In k ["catalogue_type"; "statistic_type"]) ->
  let m := measure_dict a in
  (forall k v, In (k, v) types -> dget k (fst o') = Some v) /\
  (forall k, ~ In k owned -> ~ In k (map fst types) -> ~ In k ["degrees"; "wa_orders"; "range"] ->
     dget k (fst o') = or_else (measure_entry m k) (or_else (sampling_entry u k) (dget k (fst o)))) /\
  parts "degrees" degree_labels m (fst o) (fst o') /\
  parts "wa_orders" order_labels m (fst o) (fst o') /\
  limits m (fst o) (fst o').
Proof.
  intros H ND TT m. unfold amalgamate_set in H.
  destruct (overrides _ _ _ _ _) as [[o1 df1] [[]|x]] eqn:E; [|discriminate].
  apply (overrides_sim fuel e (Some u) a o (fst o)) in E as (_ & d2 & E & S); [|now intros k _].
  destruct o1 as [d1 [[q pb]|x]]; [|discriminate].
  destruct (update _ _ _ _) as [d3 [w|x]] eqn:U; [|discriminate]. injection H as <-. cbn [fst snd] in *.
  unfold update in U. cbn [entries cpp bar] in U. apply parse_agree in U. fold owned in U.
  unfold overrides in E. apply andthen_ok in E as (d0 & f0 & E1 & E2). fold m in E2.
  assert (X := sampling_exact _ _ _ _ _ E1).
  assert (XN : forall k, In k ["degrees"; "wa_orders"; "range"] -> dget k d0 = dget k (fst o)).
  { intros k I. rewrite X, sampling_nested by exact I. reflexivity. }
  apply measure_exact in E2 as (M1 & M2 & M3 & M4 & _).
  assert (Y : forall k, ~ In k owned -> ~ In k (map fst types) -> dget k d3 = dget k d2).
  { intros k N1 N2. rewrite (U k N1), dget_dupdate_other by exact N2. exact (S k N1). }
  assert (NT : forall k, ~ In k ["catalogue_type"; "statistic_type"] -> ~ In k (map fst types))
    by (intros k N I; now apply N, TT).
  split.
  { intros k v I. assert (N : ~ In k owned).
    { assert (K := TT k (in_map fst _ _ I)). destruct K as [<-|[<-|[]]]; notin. }
    rewrite (U k N). now apply dget_dupdate_in. }
  split. { intros k N1 N2 N3. rewrite Y, M1, X by assumption. reflexivity. }
  split. { apply (parts_frame _ _ _ (fst o) d0 d2); [apply XN; cbn; tauto| |exact M2]. apply Y; [notin|apply NT; notin]. }
  split. { apply (parts_frame _ _ _ (fst o) d0 d2); [apply XN; cbn; tauto| |exact M3]. apply Y; [notin|apply NT; notin]. }
  unfold limits in *. rewrite Y by (try apply NT; notin). rewrite XN in M4 by (cbn; tauto). exact M4.
Qed.

Lemma overrides_none {S} (L : dictlike S) a s :
  overrides L None a s None = overrides L (Some []) a s None.
Proof.
  unfold overrides, modify_sampling, check_defaults, override, has. cbn [dget andthen].
  rewrite andb_false_r. reflexivity.
Qed.

Definition no_args : margs :=
  {| m_degrees := None; m_degree := None; m_orders := None; m_binning := None;
     m_form := None; m_idx := None |}.

(** The caller's set is the one that is changed: a degree given to one
    measurement is the degree of the next one made with the same set. *)
Theorem degree_sticks fuel e u a types types' o o1 o2 f v :
  amalgamate_set fuel e (Some u) a types o = (o1, Ok tt) ->
  amalgamate_set fuel e None no_args types' o1 = (o2, Ok tt) ->
  NoDup (map fst types) -> NoDup (map fst types') ->
  (forall k, In k (map fst types ++ map fst types')%list -> In k ["catalogue_type"; "statistic_type"]) ->
  dget "degrees" (fst o) = Some (VDict f) -> dget "ELL" (measure_dict a) = Some v ->
  exists f2, dget "degrees" (fst o2) = Some (VDict f2) /\ dget "ELL" f2 = Some v.
Proof.
  intros H1 H2 N1 N2 T D E. unfold amalgamate_set in H2. rewrite overrides_none in H2.
  change (amalgamate_set fuel e (Some []) no_args types' o1 = (o2, Ok tt)) in H2.
  apply set_exact in H1 as (_ & _ & (_ & P1 & _) & _);
    [|exact N1|intros k I; apply T, in_or_app; now left].
  apply set_exact in H2 as (_ & _ & (_ & P2 & _) & _);
    [|exact N2|intros k I; apply T, in_or_app; now right].
  destruct (P1 f D) as (f1 & F1 & G1). destruct (P2 f1 F1) as (f2 & F2 & G2).
  exists f2. split; [exact F2|]. rewrite G2, G1. cbn. rewrite E. reflexivity.
Qed.

(* ------------------------------------------------------------------ *)
(** * Valid overrides a parameter set refuses *)

Lemma parse_bounds fuel e c b d d' q pb :
  parse fuel e c b d = (d', Ok (q, pb)) ->
  val_pad (smp q) = Ok tt /\ val_bins (msr q) = Ok tt /\
  (forall n, dget "num_bins" d = Some (VInt n) -> num_bins (msr q) = n) /\
  (forall n, dget "idx_bin" d = Some (VInt n) -> idx_bin (msr q) = n) /\
  (forall s, dget "alignment" d = Some (VStr s) -> alignment (smp q) = lower s) /\
  (forall s, dget "padscale" d = Some (VStr s) -> padscale (smp q) = lower s) /\
  (forall x, dget "padfactor" d = Some (VNum x) -> padfactor (smp q) = x).
Proof.
  intros P. apply parse_ok in P as (d1 & p & P & V & _).
  assert (A := writes_pre e c b d). rewrite P in A. cbn [fst] in A.
  apply pre_inv in P as ([] & _).
  assert (T := validate_tail_fix _ _ _ _ _ V). specialize (T "").
  apply tail_val in T as (T1 & T2 & _). split; [exact T1|]. split; [exact T2|].
  assert (O := validate_outcome _ _ _ _ _ V).
  destruct O as ((u1&u2&u3&u4&u5&u6&u7&u8&u9&u10&u11&u12&u13&u14&u15&u16&u17&u18&u19&u20) & _).
  rewrite u18, u19, u4, u5, u6. clear u1 u2 u3 u4 u5 u6 u7 u8 u9 u10 u11 u12 u13 u14 u15 u16 u17 u18 u19 u20.
  unfold r_num_bins, r_int, r_lower, r_float in *. rewrite A in * by notin.
  split; [intros n E; rewrite E in *; cbn in *; congruence|].
  split; [intros n E; rewrite E in *; cbn in *; congruence|].
  split; [intros n E; rewrite E in *; cbn in *; congruence|].
  split; [intros n E; rewrite E in *; cbn in *; congruence|].
  intros x E; rewrite E in *; cbn in *; congruence.
Qed.

Lemma assign_parse fuel e k v o o' :
  assign (pset_like fuel e) k v o = (o', Ok tt) ->
  exists c b d' r, parse fuel e c b (dset k v (fst o)) = (d', Ok r).
Proof.
  cbn [assign pset_like]. destruct o as [d0 [[q pb]|x]]; [|discriminate].
  destruct (setitem _ _ _ _ _) as [d1 [w|x]] eqn:E; cbn [snd]; [|discriminate].
  intros _. exists q, pb, d1, w. exact E.
Qed.

(** A bin index is checked against the old number of bins, whatever the new
    one is. *)
Theorem index_refused fuel e u a types o i n :
  m_idx a = Some i -> dget "num_bins" (fst o) = Some (VInt n) -> (n <= Z.abs i)%Z ->
  forall o', amalgamate_set fuel e u a types o <> (o', Ok tt).
Proof.
  intros I NB L o' H. unfold amalgamate_set in H.
  destruct (overrides _ _ _ _ _) as [[o1 df1] [[]|x]] eqn:E; [|discriminate]. clear H.
  unfold overrides in E. apply andthen_ok in E as (oa & dfa & E1 & E).
  assert (IX : dget "idx_bin" (measure_dict a) = Some (VInt i)).
  { unfold measure_dict. rewrite I.
    destruct (m_degree a), (m_degrees a) as [[[? ?] ?]|], (m_orders a) as [[? ?]|],
      (m_binning a) as [[[? ?] ?]|], (m_form a); reflexivity. }
  revert E IX. generalize (measure_dict a). intros m E IX.
  destruct (sampling_sim fuel e u o (fst o) ltac:(now intros k _) _ _ E1) as (-> & da & EP & SA).
  assert (NA : dget "num_bins" da = Some (VInt n)).
  { destruct u as [u|]; [|injection EP as <-; exact NB].
    rewrite (sampling_exact _ _ _ _ _ EP). exact NB. }
  clear E1 EP NB. unfold modify_measurement, check_defaults in E. cbn [andthen] in E.
  do 5 (apply andthen_ok in E as (ob & dfb & E1 & E);
        pose proof (fun N => poke_dict_sim fuel e m _ _ _ oa da N SA _ _ E1) as X; clear E1;
        destruct (X ltac:(notin)) as (-> & db & EP & SB); clear X; apply poke_dict_ok in EP as (_ & EP & _);
        specialize (EP "num_bins" ltac:(discriminate)); rewrite NA in EP; clear oa da SA NA;
        rename ob into oa, db into da, SB into SA, EP into NA).
  apply andthen_ok in E as (ob & dfb & E1 & _). unfold override in E1. rewrite IX in E1.
  cbn [same assigns] in E1. unfold same in E1. cbn [assigns] in E1.
  destruct (assign _ _ _ _) as [o2 [[]|x]] eqn:AS; [|discriminate].
  apply assign_parse in AS as (c & b & d' & [q pb] & P). apply parse_bounds in P as (_ & B & P1 & P2 & _).
  apply bins_ok in B as (_ & _ & _ & B & _).
  rewrite (P2 i) in B by now rewrite dget_dset_same.
  rewrite (P1 n) in B; [lia|]. rewrite dget_dset_other by discriminate. rewrite (SA "num_bins") by notin. exact NA.
Qed.

(** Padding by a fraction of the box is refused by a set which pads by at
    least one grid cell, whatever the fraction. *)
Theorem boxpad_refused fuel e u a types o x :
  dget "boxpad" u <> None -> dget "alignment" u = None ->
  dget "alignment" (fst o) = Some (VStr "pad") ->
  dget "padfactor" (fst o) = Some (VNum x) -> (1 <= x)%R ->
  forall o', amalgamate_set fuel e (Some u) a types o <> (o', Ok tt).
Proof.
  intros BP NA AL PF L o' H. unfold amalgamate_set in H.
  destruct (overrides _ _ _ _ _) as [[o1 df1] [[]|y]] eqn:E; [|discriminate]. clear H.
  unfold overrides in E. apply andthen_ok in E as (oa & dfa & E & _).
  unfold modify_sampling, check_defaults in E. cbn [andthen] in E.
  apply andthen_ok in E as (ob & dfb & E1 & E).
  destruct (override_sim fuel e u "expand" (same "expand") ["expand"] o (fst o)
              ltac:(now intros k _) _ _ E1) as (-> & db & EP & SB).
  apply override_same_ok in EP as (EP & _).
  apply andthen_ok in E as (oc & dfc & E2 & E).
  unfold override in E2. rewrite NA in E2. injection E2 as <- <-.
  apply andthen_ok in E as (oc & dfc & E2 & E). destruct (_ && _); [discriminate|].
  injection E2 as <- <-. apply andthen_ok in E as (oc & dfc & E2 & _).
  unfold override in E2. destruct (dget "boxpad" u) as [v|]; [|congruence].
  cbn [assigns] in E2. destruct (assign _ "padscale" _ _) as [o2 [[]|y]] eqn:AS; [|discriminate].
  apply assign_parse in AS as (c & b & d' & [q pb] & P).
  apply parse_bounds in P as (B & _ & _ & _ & P3 & P4 & P5).
  assert (Q3 : alignment (smp q) = "pad").
  { rewrite (P3 "pad"); [reflexivity|]. rewrite dget_dset_other by discriminate.
    rewrite (SB "alignment") by notin. rewrite EP. exact AL. }
  assert (Q4 : padscale (smp q) = "box").
  { rewrite (P4 "box"); [reflexivity|]. now rewrite dget_dset_same. }
  assert (Q5 : padfactor (smp q) = x).
  { apply P5. rewrite dget_dset_other by discriminate.
    rewrite (SB "padfactor") by notin. rewrite EP. exact PF. }
  rewrite pad_ok in B by (rewrite Q4; now left). destruct (B Q3) as (_ & B' & _).
  specialize (B' Q4). lra.
Qed.

(* ------------------------------------------------------------------ *)
(** * Cases *)

(** Running a concrete set with a bin index or padding. *)
Lemma run_set fuel e c b d d1 p pb h :
  parse_pre e c b d = (d1, Ok (p, pb)) -> val_head (lib e) true p = Ok h ->
  (0 <? cells (ngrid (smp p)))%Z = true -> expand (smp p) = 1%R ->
  val_pad (smp h) = Ok tt -> bin_min (msr h) = 1%R -> bin_max (msr h) = 2%R ->
  (2 <=? num_bins (msr h))%Z = true -> (0 <=? idx_bin (msr h))%Z = true ->
  (idx_bin (msr h) <? num_bins (msr h))%Z = true -> binning (msr h) = "lin" ->
  parse fuel e c b d = bindM (m_fetch (tail_result h) pb) (fun _ => retM (tail_result h, pb)) d1.
Proof.
  intros P H C E A B1 B2 K1 K2 K4 K3.
  apply Z.leb_le in K1, K2. apply Z.ltb_lt in C, K4.
  assert (V : validate fuel (lib e) true p = Ok (tail_result h)).
  { rewrite (validate_direct fuel (lib e) true p h H);
      [|now right|intros _; rewrite E; lra|intros; lia].
    unfold val_tail. rewrite A. cbn [bind].
    assert (X : val_bins (msr h) = Ok tt).
    { apply bins_ok. rewrite B1, B2, K3. split; [lra|]. split; [exact K1|].
      split; [cbn; intuition discriminate|]. split; [lia|]. intros; lia. }
    rewrite X. reflexivity. }
  unfold parse. unfold bindM at 1. rewrite P. cbn [fst snd].
  unfold bindM at 1, readM, cpp_validate. rewrite V. reflexivity.
Qed.

Ltac build_with tac := unfold built, construct; erewrite run_set;
  [|lazy -[Rmult Rdiv IZR]; reflexivity|lazy -[Rmult Rdiv IZR]; reflexivity|reflexivity|reflexivity
   |tac|reflexivity..]; lazy -[Rmult Rdiv IZR]; reflexivity.

Definition row_args (i n : Z) : margs :=
  {| m_degrees := None; m_degree := None; m_orders := None; m_binning := Some (1, 2, n)%R;
     m_form := Some "row"; m_idx := Some i |}.

Definition bispec_demo (nb idx : Z) : dict :=
  dset "idx_bin" (VInt idx) (dset "form" (VStr "row")
    (pdemo "bispec" (VBool false) (axes side side side) nb)).

(** C31 fails: from five bins to row seven of ten; both sets are valid. *)
Theorem index_override_refuted : exists s t,
  built (construct 0 demo_env (bispec_demo 5 0)) s /\
  built (construct 0 demo_env (bispec_demo 10 7)) t /\
  forall fuel types o', amalgamate_set fuel demo_env None (row_args 7 10) types
    (entries s, Ok (cpp s, bar s)) <> (o', Ok tt).
Proof.
  eexists. eexists. split; [build_with reflexivity|]. split; [build_with reflexivity|].
  intros fuel types. apply (index_refused fuel demo_env None (row_args 7 10) types _ 7 5);
    [reflexivity|reflexivity|lia].
Qed.

Definition pad_demo (scale : string) (x : R) : dict :=
  dset "padfactor" (VNum x) (dset "padscale" (VStr scale) (dset "alignment" (VStr "pad")
    (pdemo "powspec" (VBool false) (axes side side side) 10))).

(** C31 fails: from padding by four cells to padding by a twentieth of the
    box. *)
Theorem boxpad_override_refuted : exists s t,
  built (construct 0 demo_env (pad_demo "grid" 4)) s /\
  built (construct 0 demo_env (pad_demo "box" (/ 20))) t /\
  forall fuel a types o', amalgamate_set fuel demo_env (Some [("boxpad", VNum (/ 20))]) a types
    (entries s, Ok (cpp s, bar s)) <> (o', Ok tt).
Proof.
  eexists. eexists.
  split; [build_with ltac:(apply pad_ok; [cbn; tauto|]; intros _; unfold all_axes; cbn; repeat split; try lra; discriminate)|].
  split; [build_with ltac:(apply pad_ok; [cbn; tauto|]; intros _; unfold all_axes; cbn; repeat split; try lra; discriminate)|].
  intros fuel a types.
  apply (boxpad_refused fuel demo_env [("boxpad", VNum (/ 20))] a types _ 4);
    [discriminate|reflexivity|reflexivity|reflexivity|lra].
Qed.

(** Both kinds of padding: refused with the expansion already written. *)
Example both_pads_late_case :
  pad_asked [("expand", VNum 2); ("boxpad", VNum (/ 20)); ("gridpad", VNum 4)] (pad_demo "grid" 4).
Proof. repeat split; cbn; congruence. Qed.

Definition survey_sampling : dict :=
  [("boxsize", VList [VNum 1000; VNum 1000; VNum 500]); ("ngrid", VList [VInt 64; VInt 64; VInt 32]);
   ("assignment", VStr "cic"); ("alignment", VStr "pad"); ("boxpad", VNum (/ 20))].

Definition powspec_args : margs :=
  {| m_degrees := None; m_degree := Some 2%Z; m_orders := None; m_binning := Some (1, 2, 10%Z)%R;
     m_form := None; m_idx := None |}.

(** A power spectrum without a parameter set: what it runs with and what it
    warns about. *)
Example template_case : exists d f,
  amalgamate_new enough_2pt (Some survey_sampling) powspec_args
    [("catalogue_type", VStr "survey"); ("statistic_type", VStr "powspec")] = Ok (d, Some f) /\
  dget "boxsize" d = Some (axes (VNum 1000) (VNum 1000) (VNum 500)) /\
  dget "padscale" d = Some (VStr "box") /\ dget "padfactor" d = Some (VNum (/ 20)) /\
  dget "binning" d = Some (VStr "lin") /\ dget "catalogue_type" d = Some (VStr "survey") /\
  dget "expand" f = Some (VNum 1) /\ dget "assignment" f = None /\ dget "alignment" f = None /\
  dget "padscale" f = None /\ dget "form" f = Some (VStr "diag").
Proof.
  destruct (proj2 (template_accepted enough_2pt survey_sampling powspec_args
    [("catalogue_type", VStr "survey"); ("statistic_type", VStr "powspec")])) as ((d & df) & E).
  { split; [reflexivity|]. split; [exact I|]. split; [exact I|]. intros [_ [_ N]]. now apply N. }
  assert (X := E). apply template_exact in X as (X1 & X2 & _ & _ & _ & f & -> & X3).
  2:{ repeat (constructor; [apply not_in_list; reflexivity|]). constructor. }
  2:{ cbn. tauto. }
  exists d, f. split; [exact E|].
  split; [rewrite X2 by (apply not_in_list; reflexivity); reflexivity|].
  split; [rewrite X2 by (apply not_in_list; reflexivity); reflexivity|].
  split; [rewrite X2 by (apply not_in_list; reflexivity); reflexivity|].
  split; [rewrite X2 by (apply not_in_list; reflexivity); reflexivity|].
  split; [apply X1; now left|].
  split; [apply X3; repeat split|].
  assert (N : forall k, sampling_entry survey_sampling k <> None -> dget k f = None).
  { intros k S. destruct (dget k f) as [v|] eqn:G; [|reflexivity]. apply X3 in G as (_ & G & _). contradiction. }
  split; [apply N; discriminate|]. split; [apply N; discriminate|]. split; [apply N; discriminate|].
  apply X3. repeat split.
Qed.

(** C31 fails on defaults with parts: [range] is changed and still reported
    as an untouched default.  (The template has no such default.) *)
Theorem container_default_refuted : exists u d f d' f',
  dget "range" f = Some (VList [VStr "a"; VStr "b"]) /\
  modify_measurement plain (Some u) d (Some f) = (d', Some f', Ok tt) /\
  dget "range" d' <> dget "range" d /\ dget "range" f' = dget "range" f.
Proof.
  exists [("bin_min", VStr "c")], [("range", VList [VStr "a"; VStr "b"])],
    [("range", VList [VStr "a"; VStr "b"])].
  do 2 eexists. split; [reflexivity|]. split; [reflexivity|]. split; [discriminate|reflexivity].
Qed.

Print Assumptions sampling_accepted.
Print Assumptions sampling_exact.
Print Assumptions sampling_defaults.
Print Assumptions both_pads_late.
Print Assumptions measure_exact.
Print Assumptions template_accepted.
Print Assumptions template_exact.
Print Assumptions set_exact.
Print Assumptions degree_sticks.
Print Assumptions index_refused.
Print Assumptions boxpad_refused.
Print Assumptions index_override_refuted.
Print Assumptions boxpad_override_refuted.
Print Assumptions container_default_refuted.
