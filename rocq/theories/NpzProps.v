(* C131: windows saved to files and loaded again. *)
From Coq Require Import String Ascii.
From Coq Require Import Reals ZArith List Bool Lra.
From Verif Require Import Base Array2dModel MultipoleModel WindowModel WindowProps NpzModel.
Import ListNotations.
Local Open Scope R_scope.

(* ------------------------------------------------------------------ *)
(* Vocabulary                                                          *)

(** The path has the extension. *)
Definition extended (path : string) : Prop := exists s, path = (s ++ ".npz")%string.

(** What the user asks a window for: points, samples and diagonals of a
    multipole. *)
Definition points_of (w : attributes) (m : list Z) : res (list R) :=
  match a_r w with
  | RDict d => lookup d m
  | _ => Err IndexError
  end.

Definition filed (w : attributes) : Prop := exists d, a_r w = RDict d.

(* ------------------------------------------------------------------ *)

Lemma endswith_spec t s : endswith t s = true <-> exists a, s = (a ++ t)%string.
Proof.
  split.
  - induction s as [|c s IH]; cbn [endswith]; intros H; apply orb_true_iff in H as [H|H].
    + apply String.eqb_eq in H. now exists ""%string.
    + discriminate H.
    + apply String.eqb_eq in H. now exists ""%string.
    + destruct (IH H) as (a & ->). now exists (String c a).
  - intros (a & ->). induction a as [|c a IH].
    + cbn. destruct t; cbn [endswith]; now rewrite String.eqb_refl.
    + cbn [append endswith]. now rewrite IH, orb_true_r.
Qed.

Lemma npz_path_extended path : extended path -> npz_path path = path.
Proof. intros E. unfold npz_path. apply endswith_spec in E. now rewrite E. Qed.

Lemma npz_path_plain path : ~ extended path -> npz_path path = (path ++ ".npz")%string.
Proof.
  intros E. unfold npz_path. destruct (endswith ".npz" path) eqn:H; [|reflexivity].
  apply endswith_spec in H. destruct (E H).
Qed.

Lemma append_longer s : s <> (s ++ ".npz")%string.
Proof. induction s; cbn; congruence. Qed.

Lemma append_same a b : (a ++ ".npz")%string = (b ++ ".npz")%string -> a = b.
Proof.
  intros E. assert (L : String.length a = String.length b).
  { apply (f_equal String.length) in E. revert E.
    assert (A : forall s, String.length (s ++ ".npz")%string = (String.length s + 4)%nat)
      by (induction s; cbn; congruence).
    rewrite !A. intros E. now apply Nat.add_cancel_r in E. }
  revert b E L. induction a as [|c a IH]; intros [|d b] E L; try discriminate L; [reflexivity|].
  cbn in E. injection E as -> E. injection L as L. f_equal. now apply IH.
Qed.

(* ------------------------------------------------------------------ *)
(* C131                                                                *)

(** A window whose points are filed by multipole, saved under a path with the
    extension ".npz", is loaded from that path with every attribute as it was,
    whatever the file held before. *)
Theorem saved_loaded fs path w : extended path -> filed w ->
  load_from_file (save_to_file fs path w) path = Ok w.
Proof.
  intros E (d & D). unfold load_from_file, save_to_file, write.
  rewrite (npz_path_extended path E), String.eqb_refl, D. cbn.
  destruct w as [r Q Qd ms src]. cbn in *. now rewrite D.
Qed.

(** Saving touches one file. *)
Theorem save_elsewhere fs path w p : p <> path -> p <> (path ++ ".npz")%string ->
  save_to_file fs path w p = fs p.
Proof.
  intros A B. unfold save_to_file, write.
  destruct (String.eqb_spec p (npz_path path)) as [E|E]; [|reflexivity].
  unfold npz_path in E. destruct (endswith ".npz" path); congruence.
Qed.

(** Under a path without the extension the window is saved, but beside it: the
    path itself holds what it held, and the extended path the window. *)
Theorem save_unextended fs path w : ~ extended path -> filed w ->
  load_from_file (save_to_file fs path w) path = load_from_file fs path /\
  load_from_file (save_to_file fs path w) (path ++ ".npz") = Ok w.
Proof.
  intros E F. split.
  - unfold load_from_file, save_to_file, write. rewrite (npz_path_plain path E).
    replace (String.eqb path (path ++ ".npz")) with false; [reflexivity|].
    symmetry. apply String.eqb_neq, append_longer.
  - assert (S : save_to_file fs path w = save_to_file fs (path ++ ".npz") w).
    { unfold save_to_file. rewrite (npz_path_plain path E), npz_path_extended; [reflexivity|].
      now exists path. }
    rewrite S. apply saved_loaded; [now exists path|exact F].
Qed.

(** Two windows saved under different paths are both there, unless one path is
    the other with the extension. *)
Theorem saved_apart fs p q v w : filed v -> filed w -> p <> q ->
  (~ extended p -> q <> (p ++ ".npz")%string) -> (~ extended q -> p <> (q ++ ".npz")%string) ->
  let fs' := save_to_file (save_to_file fs p v) q w in
  load_from_file fs' (npz_path p) = Ok v /\ load_from_file fs' (npz_path q) = Ok w.
Proof.
  intros F G N A B fs'.
  assert (X : forall s, extended (npz_path s)).
  { intros s. unfold npz_path. destruct (endswith ".npz" s) eqn:H.
    - now apply endswith_spec.
    - now exists s. }
  assert (Y : forall s, npz_path (npz_path s) = npz_path s) by (intros s; now apply npz_path_extended).
  assert (S : forall fs s u, save_to_file fs s u = save_to_file fs (npz_path s) u)
    by (intros f s u; unfold save_to_file; now rewrite Y).
  assert (D : npz_path p <> npz_path q).
  { unfold npz_path. destruct (endswith ".npz" p) eqn:P, (endswith ".npz" q) eqn:Q.
    - exact N.
    - apply B. intros H. apply endswith_spec in H. congruence.
    - intros H. symmetry in H. revert H. apply A. intros H. apply endswith_spec in H. congruence.
    - intros H. apply append_same in H. contradiction. }
  split.
  - unfold fs'. rewrite (S _ q), (S _ p).
    assert (K : save_to_file (save_to_file fs (npz_path p) v) (npz_path q) w (npz_path p)
                = save_to_file fs (npz_path p) v (npz_path p)).
    { unfold save_to_file at 1, write. rewrite Y.
      destruct (String.eqb_spec (npz_path p) (npz_path q)); [contradiction|reflexivity]. }
    unfold load_from_file. rewrite K. apply (saved_loaded fs (npz_path p) v (X p) F).
  - unfold fs'. rewrite (S _ q). now apply saved_loaded.
Qed.

(** Of paths that differ by the extension, the window saved last is left. *)
Theorem saved_over fs p v w : ~ extended p -> filed w ->
  let fs' := save_to_file (save_to_file fs p v) (p ++ ".npz") w in
  load_from_file fs' (p ++ ".npz") = Ok w /\ load_from_file fs' (npz_path p) = Ok w.
Proof.
  intros E F fs'. assert (L : load_from_file fs' (p ++ ".npz") = Ok w).
  { unfold fs'. apply saved_loaded; [now exists p|exact F]. }
  split; [exact L|]. now rewrite npz_path_plain.
Qed.

(** A window whose points are a single array is saved without complaint, but
    its file cannot be loaded, or is loaded with a number for its points. *)
Theorem array_not_loaded fs path w a : extended path -> a_r w = RArray a ->
  (length a <> 1%nat -> load_from_file (save_to_file fs path w) path = Err ValueError) /\
  (forall w', load_from_file (save_to_file fs path w) path = Ok w' ->
     exists x, a = [x] /\ a_r w' = RFloat x /\ forall m, points_of w' m = Err IndexError).
Proof.
  intros E D. unfold load_from_file, save_to_file, write.
  rewrite (npz_path_extended path E), String.eqb_refl, D. cbn.
  split.
  - intros L. destruct a as [|x [|y a]]; cbn in *; [reflexivity|congruence|reflexivity].
  - intros w' H. destruct a as [|x [|y a]]; cbn in H; try discriminate H.
    injection H as <-. exists x. repeat split.
Qed.

(** Such are the windows `subselect` returns: none that is saved is loaded
    with points for any multipole. *)
Theorem subselected_lost h w rr s e w' src fs path v : usable w -> honoured w rr ->
  subselect_new h w rr (ITuple s e) = Ok w' -> extended path ->
  load_from_file (save_to_file fs path (attributes_of w' src)) path = Ok v ->
  forall m, points_of v m = Err IndexError.
Proof.
  intros U H E X L. destruct (new_points_lost h w rr s e w' U H E) as (a & A & _).
  assert (D : a_r (attributes_of w' src) = RArray a) by (cbn; now rewrite A).
  destruct (array_not_loaded fs path (attributes_of w' src) a X D) as (_ & K).
  destruct (K v L) as (x & _ & _ & P). exact P.
Qed.

(** Windows made in any other way are loaded with all they hold: points,
    samples and diagonals of every multipole. *)
Theorem usable_loaded fs path w src : usable w -> extended path ->
  exists v, load_from_file (save_to_file fs path (attributes_of w src)) path = Ok v /\
    (forall m, points_of v m = r_of w m) /\
    (forall m, lookup (a_Q v) m = lookup (w_Q w) m) /\
    (forall m, lookup (a_Q_diag v) m = lookup (w_Q_diag w) m) /\
    a_multipoles v = w_multipoles w /\ a_sources v = src.
Proof.
  intros (d & D & _) E. exists (attributes_of w src). split.
  - apply saved_loaded; [exact E|]. exists d. cbn. now rewrite D.
  - repeat split. intros m. unfold points_of, r_of. cbn. rewrite D. reflexivity.
Qed.

(* ------------------------------------------------------------------ *)
(* Cases                                                               *)

Definition no_files : files := fun _ => None.

Lemma not_extended_window : ~ extended "window".
Proof.
  intros (s & E). assert (endswith ".npz" "window" = true) by (apply endswith_spec; now exists s).
  discriminate.
Qed.

(** A window of two multipoles, saved as "window.npz". *)
Example saved_case : exists v,
  load_from_file (save_to_file no_files "window.npz" (attributes_of win2 ["array"; "array"]%string))
    "window.npz" = Ok v
  /\ points_of v quad = Ok [1; 2] /\ lookup (a_Q v) quad = Ok [[1; 2]; [3; 4]].
Proof.
  destruct (usable_loaded no_files "window.npz" win2 ["array"; "array"]%string win2_usable)
    as (v & L & P & Q & _); [now exists "window"%string|].
  exists v. split; [exact L|]. now rewrite P, Q.
Qed.

(** C131 fails as stated: what is saved as "window" is not found as "window",
    or an older file is loaded in its place. *)
Theorem extension_refuted : exists path fs w w0,
  usable win2 /\ w = attributes_of win2 [] /\ w <> w0
  /\ load_from_file (save_to_file no_files path w) path = Err IOErr
  /\ load_from_file (save_to_file fs path w) path = Ok w0.
Proof.
  pose (old := mk_attributes (RDict []) [] [] [] []).
  exists "window"%string.
  exists (fun p => if String.eqb p "window" then save_to_file no_files "old.npz" old "old.npz"%string
                   else None), (attributes_of win2 []), old.
  split; [apply win2_usable|]. split; [reflexivity|]. split; [discriminate|]. split.
  - destruct (save_unextended no_files "window" (attributes_of win2 []) not_extended_window) as (A & _).
    + eexists. reflexivity.
    + rewrite A. reflexivity.
  - match goal with |- load_from_file (save_to_file ?f _ ?w) _ = _ =>
      destruct (save_unextended f "window" w not_extended_window) as (A & _);
        [eexists; reflexivity|rewrite A; reflexivity] end.
Qed.

(** And a window returned by `subselect` with a tuple of indices is not
    loaded at all. *)
Theorem subselected_refuted : exists w',
  subselect_new false win2 RNone (ITuple None None) = Ok w'
  /\ load_from_file (save_to_file no_files "window.npz" (attributes_of w' [])) "window.npz"
     = Err ValueError.
Proof.
  assert (E : exists w', subselect_new false win2 RNone (ITuple None None) = Ok w'
                         /\ w_r w' = OneArray [1; 2]).
  { eexists. split; [cbv -[IZR]; reflexivity|reflexivity]. }
  destruct E as (w' & E & A). exists w'. split; [exact E|].
  apply (array_not_loaded _ _ _ [1; 2]); [now exists "window"%string| |discriminate].
  cbn. now rewrite A.
Qed.

Print Assumptions saved_loaded.
Print Assumptions save_elsewhere.
Print Assumptions save_unextended.
Print Assumptions saved_apart.
Print Assumptions saved_over.
Print Assumptions array_not_loaded.
Print Assumptions subselected_lost.
Print Assumptions usable_loaded.
Print Assumptions extension_refuted.
Print Assumptions subselected_refuted.
