(* Properties of the particle catalogue: current extents (C34), box alignment (C32)
   and periodic wrapping (C33) of particles.cpp. *)
From Coq Require Import Reals ZArith List Lia Lra Bool.
From Flocq Require Import Core.Raux.
From Verif Require Import Base ArrayModel ArrayProofs RSum MeshModel MeshProofs CatModel.
Import ListNotations.
Open Scope R_scope.

(** ** Vocabulary *)

Inductive axis : Set := AX | AY | AZ.
Definition at_axis {A} (i : axis) (t : triple A) : A :=
  match i with AX => ax0 t | AY => ax1 t | AZ => ax2 t end.

(** [lo] and [hi] are the least and greatest coordinate of the particles. *)
Definition extremes (i : axis) (ps : list pdatum) (lo hi : R) : Prop :=
  (exists p, In p ps /\ at_axis i (p_pos p) = lo) /\
  (exists p, In p ps /\ at_axis i (p_pos p) = hi) /\
  (forall p, In p ps -> lo <= at_axis i (p_pos p) <= hi).

(** The extents kept by a catalogue with particles are those of its particles. *)
Definition extents_current (c : catalogue) : Prop :=
  match pdata c with
  | None => True
  | Some ps => forall i, extremes i ps (at_axis i (pos_min c)) (at_axis i (pos_max c)) /\
                 at_axis i (pos_span c) = at_axis i (pos_max c) - at_axis i (pos_min c)
  end.

(** The totals kept by a catalogue with particles. *)
Definition weights_current (c : catalogue) : Prop :=
  match pdata c with
  | None => True
  | Some ps => wtotal c = rsum (map p_w ps) /\ wstotal c = rsum (map p_ws ps)
  end.

(** Particle [p'] is [p] moved by minus [d] on each axis, nothing else changed. *)
Definition moved (d : axis -> R) (p p' : pdatum) : Prop :=
  (forall i, at_axis i (p_pos p') = at_axis i (p_pos p) - d i) /\
  p_nz p' = p_nz p /\ p_ws p' = p_ws p /\ p_wc p' = p_wc p /\ p_w p' = p_w p.

Definition has (c : catalogue) (ps : list pdatum) : Prop := pdata c = Some ps /\ ps <> [].

(** ** Running extremes *)

Lemma run_min_spec xs : forall x0, (run_min x0 xs = x0 \/ In (run_min x0 xs) xs) /\
  run_min x0 xs <= x0 /\ forall x, In x xs -> run_min x0 xs <= x.
Proof.
  unfold run_min. induction xs as [|y xs IH]; intros x0; cbn [fold_left].
  - split; [left; reflexivity|]. split; [lra|]. intros x [].
  - destruct (Rltb x0 y) eqn:H; [apply Rltb_spec in H|apply Rltb_false in H].
    + destruct (IH x0) as [A [B C]]. split; [|split].
      * destruct A; [left|right; right]; assumption.
      * exact B.
      * intros x [<-|I]; [lra|apply C, I].
    + destruct (IH y) as [A [B C]]. split; [|split].
      * right. destruct A as [A|A]; [left; symmetry; exact A|right; exact A].
      * lra.
      * intros x [<-|I]; [exact B|apply C, I].
Qed.

Lemma run_max_spec xs : forall x0, (run_max x0 xs = x0 \/ In (run_max x0 xs) xs) /\
  x0 <= run_max x0 xs /\ forall x, In x xs -> x <= run_max x0 xs.
Proof.
  unfold run_max. induction xs as [|y xs IH]; intros x0; cbn [fold_left].
  - split; [left; reflexivity|]. split; [lra|]. intros x [].
  - destruct (Rltb y x0) eqn:H; [apply Rltb_spec in H|apply Rltb_false in H].
    + destruct (IH x0) as [A [B C]]. split; [|split].
      * destruct A; [left|right; right]; assumption.
      * exact B.
      * intros x [<-|I]; [lra|apply C, I].
    + destruct (IH y) as [A [B C]]. split; [|split].
      * right. destruct A as [A|A]; [left; symmetry; exact A|right; exact A].
      * lra.
      * intros x [<-|I]; [exact B|apply C, I].
Qed.

(** The refreshed catalogue. *)
Definition refresh (c : catalogue) (ps : list pdatum) : catalogue :=
  match ps with
  | [] => c
  | p :: _ =>
      let lo := T3 (run_min (ax0 (p_pos p)) (axis_of ax0 ps))
                   (run_min (ax1 (p_pos p)) (axis_of ax1 ps))
                   (run_min (ax2 (p_pos p)) (axis_of ax2 ps)) in
      let hi := T3 (run_max (ax0 (p_pos p)) (axis_of ax0 ps))
                   (run_max (ax1 (p_pos p)) (axis_of ax1 ps))
                   (run_max (ax2 (p_pos p)) (axis_of ax2 ps)) in
      Catalogue (Some ps) (wtotal c) (wstotal c) lo hi (tsub hi lo)
  end.

Lemma extents_run s a ps : has (s a) ps ->
  calc_pos_extents a s = (upd s a (refresh (s a) ps), Ok tt).
Proof.
  intros [E N]. unfold calc_pos_extents, andthen, get, put. rewrite E.
  destruct ps as [|p ps]; [congruence|]. reflexivity.
Qed.

Lemma at_axis_In i p ps : In p ps -> In (at_axis i (p_pos p)) (axis_of (at_axis i) ps).
Proof. intros I. unfold axis_of. apply in_map_iff. exists p. auto. Qed.

Lemma refresh_bounds i c p ps :
  at_axis i (pos_min (refresh c (p :: ps))) = run_min (at_axis i (p_pos p)) (axis_of (at_axis i) (p :: ps)) /\
  at_axis i (pos_max (refresh c (p :: ps))) = run_max (at_axis i (p_pos p)) (axis_of (at_axis i) (p :: ps)).
Proof. destruct i; split; reflexivity. Qed.

Lemma refresh_extremes i c ps : ps <> [] ->
  extremes i ps (at_axis i (pos_min (refresh c ps))) (at_axis i (pos_max (refresh c ps))).
Proof.
  intros N. destruct ps as [|p ps]; [congruence|].
  destruct (refresh_bounds i c p ps) as [E1 E2]. rewrite E1, E2.
  destruct (run_min_spec (axis_of (at_axis i) (p :: ps)) (at_axis i (p_pos p))) as [A [B C]].
  destruct (run_max_spec (axis_of (at_axis i) (p :: ps)) (at_axis i (p_pos p))) as [A' [B' C']].
  split; [|split].
  - destruct A as [A|A].
    + exists p. split; [left; reflexivity|symmetry; exact A].
    + apply in_map_iff in A. destruct A as [q [Q I]]. exists q. auto.
  - clear A; destruct A' as [A|A].
    + exists p. split; [left; reflexivity|symmetry; exact A].
    + apply in_map_iff in A. destruct A as [q [Q I]]. exists q. auto.
  - intros q I. split; [apply C|apply C']; apply at_axis_In, I.
Qed.

Lemma refresh_span i c ps : ps <> [] ->
  at_axis i (pos_span (refresh c ps)) =
  at_axis i (pos_max (refresh c ps)) - at_axis i (pos_min (refresh c ps)).
Proof. intros N. destruct ps as [|p ps]; [congruence|]. destruct i; reflexivity. Qed.

Lemma refresh_pdata c ps : ps <> [] -> pdata (refresh c ps) = Some ps.
Proof. destruct ps; [congruence|reflexivity]. Qed.

Lemma refresh_weights c ps : wtotal (refresh c ps) = wtotal c /\ wstotal (refresh c ps) = wstotal c.
Proof. destruct ps; split; reflexivity. Qed.

Lemma refresh_current c ps : ps <> [] -> extents_current (refresh c ps).
Proof.
  intros N. unfold extents_current. rewrite (refresh_pdata c ps N). intros i.
  split; [apply refresh_extremes, N|apply refresh_span, N].
Qed.

Lemma extremes_unique i ps lo hi lo' hi' : extremes i ps lo hi -> extremes i ps lo' hi' ->
  lo = lo' /\ hi = hi'.
Proof.
  intros [[p [P1 P2]] [[q [Q1 Q2]] A]] [[p' [P1' P2']] [[q' [Q1' Q2']] A']].
  assert (B := A p' P1'). assert (B' := A' p P1). assert (D := A q' Q1'). assert (D' := A' q Q1).
  split; lra.
Qed.

(** ** Shifts *)

Definition on_axes (d : triple R) : axis -> R := fun i => at_axis i d.

Lemma shift_axis i d p : at_axis i (p_pos (shift_pos d p)) = at_axis i (p_pos p) - at_axis i d.
Proof. destruct i; reflexivity. Qed.

Lemma shift_moved d ps : Forall2 (moved (on_axes d)) ps (map (shift_pos d) ps).
Proof.
  induction ps as [|p ps IH]; cbn [map]; constructor; [|exact IH].
  split; [intros i; apply shift_axis|]. repeat split.
Qed.

Lemma shift_extremes i d ps lo hi : extremes i ps lo hi ->
  extremes i (map (shift_pos d) ps) (lo - at_axis i d) (hi - at_axis i d).
Proof.
  intros [[p [P1 P2]] [[q [Q1 Q2]] A]]. split; [|split].
  - exists (shift_pos d p). split; [apply in_map, P1|]. rewrite shift_axis, P2. reflexivity.
  - exists (shift_pos d q). split; [apply in_map, Q1|]. rewrite shift_axis, Q2. reflexivity.
  - intros r I. apply in_map_iff in I. destruct I as [r' [<- I]]. rewrite shift_axis.
    specialize (A r' I). lra.
Qed.

Lemma map_nonempty {A B} (f : A -> B) l : l <> [] -> map f l <> [].
Proof. destruct l; [congruence|discriminate]. Qed.

Lemma upd_same s a c : upd s a c a = c.
Proof. unfold upd. rewrite Nat.eqb_refl. reflexivity. Qed.
Lemma upd_other s a c b : b <> a -> upd s a c b = s b.
Proof. unfold upd. intros N. apply Nat.eqb_neq in N. rewrite N. reflexivity. Qed.

(** The catalogue after a shift. *)
Definition shifted (d : triple R) (c : catalogue) (ps : list pdatum) : catalogue :=
  refresh c (map (shift_pos d) ps).

Lemma refresh_ext c c' ps : wtotal c = wtotal c' -> wstotal c = wstotal c' -> ps <> [] ->
  refresh c ps = refresh c' ps.
Proof. intros A B N. destruct ps; [congruence|]. cbn [refresh]. rewrite A, B. reflexivity. Qed.

Lemma offset_run s a d ps : has (s a) ps ->
  exists s', offset_coords a d s = (s', Ok tt) /\
    (forall b, s' b = if Nat.eqb b a then shifted d (s a) ps else s b).
Proof.
  intros [E N]. unfold offset_coords, andthen, get at 1. rewrite E.
  unfold set_pdata, andthen, get at 1, put. cbn [fst snd].
  set (s1 := upd s a _).
  assert (H : has (s1 a) (map (shift_pos d) ps)).
  { unfold s1. rewrite upd_same. split; [reflexivity|apply map_nonempty, N]. }
  rewrite (extents_run s1 a _ H). eexists. split; [reflexivity|].
  intros b. unfold upd at 1. destruct (Nat.eqb b a) eqn:Q.
  - unfold s1. rewrite upd_same. apply refresh_ext; try reflexivity. apply map_nonempty, N.
  - unfold s1. apply Nat.eqb_neq in Q. apply upd_other, Q.
Qed.

Lemma shifted_has d c ps : ps <> [] -> has (shifted d c ps) (map (shift_pos d) ps).
Proof.
  intros N. unfold shifted. split; [apply refresh_pdata|]; apply map_nonempty, N.
Qed.

Lemma shifted_extremes i d c ps lo hi : ps <> [] -> extremes i ps lo hi ->
  at_axis i (pos_min (shifted d c ps)) = lo - at_axis i d /\
  at_axis i (pos_max (shifted d c ps)) = hi - at_axis i d.
Proof.
  intros N X. apply (extremes_unique i (map (shift_pos d) ps)).
  - apply refresh_extremes, map_nonempty, N.
  - apply shift_extremes, X.
Qed.

(** Shifting two distinct catalogues by one vector. *)
Lemma offset_two s a b d psa psb : a <> b -> has (s a) psa -> has (s b) psb ->
  exists s', (offset_coords b d ;> offset_coords a d) s = (s', Ok tt) /\
    s' a = shifted d (s a) psa /\ s' b = shifted d (s b) psb /\
    (forall c, c <> a -> c <> b -> s' c = s c).
Proof.
  intros N Ha Hb. unfold andthen.
  destruct (offset_run s b d psb Hb) as [s1 [E1 F1]]. rewrite E1.
  assert (Q : s1 a = s a). { rewrite F1. apply Nat.eqb_neq in N. rewrite N. reflexivity. }
  assert (Ha1 : has (s1 a) psa) by (rewrite Q; exact Ha).
  destruct (offset_run s1 a d psa Ha1) as [s2 [E2 F2]]. rewrite E2.
  exists s2. split; [reflexivity|]. split; [|split].
  - rewrite F2, Nat.eqb_refl, Q. reflexivity.
  - rewrite F2. assert (M : b <> a) by auto. apply Nat.eqb_neq in M. rewrite M, F1, Nat.eqb_refl. reflexivity.
  - intros c Ca Cb. rewrite F2. apply Nat.eqb_neq in Ca. rewrite Ca, F1. apply Nat.eqb_neq in Cb. rewrite Cb. reflexivity.
Qed.

Lemma refresh_has c ps : ps <> [] -> has (refresh c ps) ps.
Proof. intros N. split; [apply refresh_pdata, N|exact N]. Qed.

Lemma shifted_refresh d c ps : ps <> [] -> shifted d (refresh c ps) ps = shifted d c ps.
Proof.
  intros N. unfold shifted. apply refresh_ext; [apply refresh_weights|apply refresh_weights|apply map_nonempty, N].
Qed.

(** What every alignment does: both catalogues (when distinct and initialised) move by one
    vector [d], the kept extents and totals stay those of the particles, and no other
    catalogue is touched. *)
Definition moves_both (s s' : store) (a b : nat) (psa psb : list pdatum) (d : axis -> R) : Prop :=
  (exists psa' psb', has (s' a) psa' /\ has (s' b) psb' /\
     Forall2 (moved d) psa psa' /\ Forall2 (moved d) psb psb') /\
  extents_current (s' a) /\ extents_current (s' b) /\
  (wtotal (s' a) = wtotal (s a) /\ wstotal (s' a) = wstotal (s a)) /\
  (wtotal (s' b) = wtotal (s b) /\ wstotal (s' b) = wstotal (s b)) /\
  (forall c, c <> a -> c <> b -> s' c = s c).

Lemma shifted_moves s s' a b d psa psb : a <> b -> has (s a) psa -> has (s b) psb ->
  s' a = shifted d (s a) psa -> s' b = shifted d (s b) psb -> (forall c, c <> a -> c <> b -> s' c = s c) ->
  moves_both s s' a b psa psb (on_axes d).
Proof.
  intros N [Ea Na] [Eb Nb] Fa Fb Fc. unfold moves_both. rewrite Fa, Fb.
  split; [|split; [|split; [|split; [|split]]]].
  - exists (map (shift_pos d) psa), (map (shift_pos d) psb).
    split; [apply shifted_has, Na|]. split; [apply shifted_has, Nb|]. split; apply shift_moved.
  - apply refresh_current, map_nonempty, Na.
  - apply refresh_current, map_nonempty, Nb.
  - apply refresh_weights.
  - apply refresh_weights.
  - exact Fc.
Qed.

(** Stores after recomputing the extents of [a] and [b]. *)
Lemma extents_two s a b psa psb : a <> b -> has (s a) psa -> has (s b) psb ->
  exists s1, (forall A (f : act A), (calc_pos_extents a ;> (calc_pos_extents b ;> f)) s = f s1) /\
    s1 a = refresh (s a) psa /\ s1 b = refresh (s b) psb /\ (forall c, c <> a -> c <> b -> s1 c = s c).
Proof.
  intros N Ha Hb. exists (upd (upd s a (refresh (s a) psa)) b (refresh (s b) psb)).
  split; [|split; [|split]].
  - intros A f. unfold andthen. rewrite (extents_run s a psa Ha).
    assert (Hb' : has (upd s a (refresh (s a) psa) b) psb) by (rewrite upd_other; [exact Hb|auto]).
    rewrite (extents_run _ b psb Hb'). rewrite upd_other by auto. reflexivity.
  - rewrite upd_other by auto. apply upd_same.
  - apply upd_same.
  - intros c Ca Cb. rewrite !upd_other by auto. reflexivity.
Qed.

Lemma align_general s a b psa psb (v : catalogue -> triple R) : a <> b -> has (s a) psa -> has (s b) psb ->
  exists s', (calc_pos_extents a ;> (calc_pos_extents b ;>
      (do c <- get b; (offset_coords b (v c) ;> offset_coords a (v c))))) s = (s', Ok tt) /\
    s' b = shifted (v (refresh (s b) psb)) (s b) psb /\
    s' a = shifted (v (refresh (s b) psb)) (s a) psa /\
    moves_both s s' a b psa psb (on_axes (v (refresh (s b) psb))).
Proof.
  intros N Ha Hb. destruct (extents_two s a b psa psb N Ha Hb) as [s1 [R1 [A1 [B1 C1]]]].
  rewrite R1. unfold andthen at 1, get. cbn [fst snd]. rewrite B1.
  set (d := v (refresh (s b) psb)).
  assert (H1a : has (s1 a) psa) by (rewrite A1; apply refresh_has, Ha).
  assert (H1b : has (s1 b) psb) by (rewrite B1; apply refresh_has, Hb).
  destruct (offset_two s1 a b d psa psb N H1a H1b) as [s2 [E [Fa [Fb Fc]]]].
  exists s2. rewrite A1, shifted_refresh in Fa by apply Ha. rewrite B1, shifted_refresh in Fb by apply Hb.
  split; [exact E|]. split; [exact Fb|]. split; [exact Fa|].
  apply shifted_moves; auto. intros c Ca Cb. rewrite Fc by auto. apply C1; auto.
Qed.

(** As [align_general] without the first recomputation (pad_grids). *)
Lemma align_general1 s a b psa psb (v : catalogue -> triple R) : a <> b -> has (s a) psa -> has (s b) psb ->
  exists s', (calc_pos_extents b ;>
      (do c <- get b; (offset_coords b (v c) ;> offset_coords a (v c)))) s = (s', Ok tt) /\
    s' b = shifted (v (refresh (s b) psb)) (s b) psb /\
    s' a = shifted (v (refresh (s b) psb)) (s a) psa /\
    moves_both s s' a b psa psb (on_axes (v (refresh (s b) psb))).
Proof.
  intros N Ha Hb. unfold andthen at 1. rewrite (extents_run s b psb Hb).
  unfold andthen at 1, get. cbn [fst snd]. rewrite upd_same.
  set (d := v (refresh (s b) psb)). set (s1 := upd s b _).
  assert (A1 : s1 a = s a) by (unfold s1; apply upd_other; auto).
  assert (B1 : s1 b = refresh (s b) psb) by (unfold s1; apply upd_same).
  assert (H1a : has (s1 a) psa) by (rewrite A1; exact Ha).
  assert (H1b : has (s1 b) psb) by (rewrite B1; apply refresh_has, Hb).
  destruct (offset_two s1 a b d psa psb N H1a H1b) as [s2 [E [Fa [Fb Fc]]]].
  exists s2. rewrite A1 in Fa. rewrite B1, shifted_refresh in Fb by apply Hb.
  split; [exact E|]. split; [exact Fb|]. split; [exact Fa|].
  apply shifted_moves; auto. intros c Ca Cb. rewrite Fc by auto. unfold s1. apply upd_other; auto.
Qed.

(** ** C32: alignment *)

(** Centring: on each axis the midpoint of the new reference extents is the box centre. *)
Theorem centre_aligns :
  forall s a b boxsize psa psb, a <> b -> has (s a) psa -> has (s b) psb ->
  exists s' d, centre_in_box a b boxsize s = (s', Ok tt) /\ moves_both s s' a b psa psb d /\
    forall i, (at_axis i (pos_min (s' b)) + at_axis i (pos_max (s' b))) / 2 = at_axis i boxsize / 2.
Proof.
  intros s a b L psa psb N Ha Hb.
  destruct (align_general s a b psa psb
    (fun c => tmap2 (fun m l => m - l / 2) (tmap2 (fun lo hi => (lo + hi) / 2) (pos_min c) (pos_max c)) L)
    N Ha Hb) as [s' [E [Fb [Fa M]]]].
  exists s'. eexists. split; [exact E|]. split; [exact M|]. intros i. rewrite Fb.
  destruct Hb as [Eb Nb].
  destruct (shifted_extremes i (tmap2 (fun m l => m - l / 2)
     (tmap2 (fun lo hi => (lo + hi) / 2) (pos_min (refresh (s b) psb)) (pos_max (refresh (s b) psb))) L)
     (s b) psb _ _ Nb (refresh_extremes i (s b) psb Nb)) as [E1 E2].
  rewrite E1, E2. destruct i; cbn [at_axis tmap2 ax0 ax1 ax2]; lra.
Qed.

(** Padding by a fraction of the box: the least reference coordinate is the padding. *)
Theorem pad_in_box_aligns :
  forall s a b boxsize pad psa psb, a <> b -> has (s a) psa -> has (s b) psb ->
  exists s' d, pad_in_box a b boxsize pad s = (s', Ok tt) /\ moves_both s s' a b psa psb d /\
    forall i, at_axis i (pos_min (s' b)) = at_axis i pad * at_axis i boxsize.
Proof.
  intros s a b L pad psa psb N Ha Hb.
  destruct (align_general s a b psa psb (fun c => tsub (pos_min c) (tmap2 Rmult pad L)) N Ha Hb)
    as [s' [E [Fb [Fa M]]]].
  exists s'. eexists. split; [exact E|]. split; [exact M|]. intros i. rewrite Fb.
  destruct Hb as [Eb Nb].
  destruct (shifted_extremes i (tsub (pos_min (refresh (s b) psb)) (tmap2 Rmult pad L))
     (s b) psb _ _ Nb (refresh_extremes i (s b) psb Nb)) as [E1 E2].
  rewrite E1. destruct i; cbn [at_axis tsub tmap2 ax0 ax1 ax2]; lra.
Qed.

(** Padding in cells. *)
Theorem pad_grids_aligns :
  forall s a b boxsize ngrid pad psa psb, a <> b -> has (s a) psa -> has (s b) psb ->
  exists s' d, pad_grids a b boxsize ngrid pad s = (s', Ok tt) /\ moves_both s s' a b psa psb d /\
    forall i, at_axis i (pos_min (s' b)) = at_axis i pad * (at_axis i boxsize / IZR (at_axis i ngrid)).
Proof.
  intros s a b L n pad psa psb N Ha Hb.
  destruct (align_general1 s a b psa psb (fun c => tsub (pos_min c) (grid_pad L n pad)) N Ha Hb)
    as [s' [E [Fb [Fa M]]]].
  exists s'. eexists. split; [exact E|]. split; [exact M|]. intros i. rewrite Fb.
  destruct Hb as [Eb Nb].
  destruct (shifted_extremes i (tsub (pos_min (refresh (s b) psb)) (grid_pad L n pad))
     (s b) psb _ _ Nb (refresh_extremes i (s b) psb Nb)) as [E1 E2].
  rewrite E1. destruct i; unfold grid_pad; cbn [at_axis tsub tmap2 ax0 ax1 ax2]; unfold Rdiv; ring.
Qed.

(** The one-catalogue versions. *)
Lemma align_single s a ps (v : catalogue -> triple R) : has (s a) ps ->
  exists s', (calc_pos_extents a ;> (do c <- get a; offset_coords a (v c))) s = (s', Ok tt) /\
    s' a = shifted (v (refresh (s a) ps)) (s a) ps /\ (forall c, c <> a -> s' c = s c).
Proof.
  intros H. unfold andthen at 1. rewrite (extents_run s a ps H).
  unfold andthen at 1, get. cbn [fst snd]. rewrite upd_same.
  set (s1 := upd s a _).
  assert (B1 : s1 a = refresh (s a) ps) by (unfold s1; apply upd_same).
  assert (H1 : has (s1 a) ps) by (rewrite B1; apply refresh_has, H).
  destruct (offset_run s1 a (v (refresh (s a) ps)) ps H1) as [s2 [E F]].
  exists s2. split; [exact E|]. split.
  - rewrite F, Nat.eqb_refl, B1, shifted_refresh by apply H. reflexivity.
  - intros c C. rewrite F. pose proof C as C'. apply Nat.eqb_neq in C. rewrite C. unfold s1. apply upd_other, C'.
Qed.

Definition moves_one (s s' : store) (a : nat) (ps : list pdatum) (d : axis -> R) : Prop :=
  (exists ps', has (s' a) ps' /\ Forall2 (moved d) ps ps') /\ extents_current (s' a) /\
  (wtotal (s' a) = wtotal (s a) /\ wstotal (s' a) = wstotal (s a)) /\ (forall c, c <> a -> s' c = s c).

Lemma shifted_moves_one s s' a d ps : has (s a) ps -> s' a = shifted d (s a) ps ->
  (forall c, c <> a -> s' c = s c) -> moves_one s s' a ps (on_axes d).
Proof.
  intros [E N] F C. unfold moves_one. rewrite F. split; [|split; [|split]].
  - exists (map (shift_pos d) ps). split; [apply shifted_has, N|apply shift_moved].
  - apply refresh_current, map_nonempty, N.
  - apply refresh_weights.
  - exact C.
Qed.

Theorem align_single_catalogue :
  forall s a boxsize ngrid pad ps, has (s a) ps ->
  (exists s' d, centre_in_box1 a boxsize s = (s', Ok tt) /\ moves_one s s' a ps d /\
     forall i, (at_axis i (pos_min (s' a)) + at_axis i (pos_max (s' a))) / 2 = at_axis i boxsize / 2) /\
  (exists s' d, pad_in_box1 a boxsize pad s = (s', Ok tt) /\ moves_one s s' a ps d /\
     forall i, at_axis i (pos_min (s' a)) = at_axis i pad * at_axis i boxsize) /\
  (exists s' d, pad_grids1 a boxsize ngrid pad s = (s', Ok tt) /\ moves_one s s' a ps d /\
     forall i, at_axis i (pos_min (s' a)) = at_axis i pad * (at_axis i boxsize / IZR (at_axis i ngrid))).
Proof.
  intros s a L n pad ps H. destruct H as [Eb Nb]. assert (H : has (s a) ps) by (split; assumption).
  split; [|split].
  - destruct (align_single s a ps
      (fun c => tmap2 (fun m l => m - l / 2) (tmap2 (fun lo hi => (lo + hi) / 2) (pos_min c) (pos_max c)) L) H)
      as [s' [E [F C]]].
    exists s'. eexists. split; [exact E|]. split; [apply shifted_moves_one; [exact H|exact F|exact C]|].
    intros i. rewrite F.
    destruct (shifted_extremes i (tmap2 (fun m l => m - l / 2)
      (tmap2 (fun lo hi => (lo + hi) / 2) (pos_min (refresh (s a) ps)) (pos_max (refresh (s a) ps))) L)
      (s a) ps _ _ Nb (refresh_extremes i (s a) ps Nb)) as [E1 E2].
    rewrite E1, E2. destruct i; cbn [at_axis tmap2 ax0 ax1 ax2]; lra.
  - destruct (align_single s a ps (fun c => tsub (pos_min c) (tmap2 Rmult pad L)) H) as [s' [E [F C]]].
    exists s'. eexists. split; [exact E|]. split; [apply shifted_moves_one; [exact H|exact F|exact C]|].
    intros i. rewrite F.
    destruct (shifted_extremes i (tsub (pos_min (refresh (s a) ps)) (tmap2 Rmult pad L))
      (s a) ps _ _ Nb (refresh_extremes i (s a) ps Nb)) as [E1 E2].
    rewrite E1. destruct i; cbn [at_axis tsub tmap2 ax0 ax1 ax2]; lra.
  - destruct (align_single s a ps (fun c => tsub (pos_min c) (grid_pad L n pad)) H) as [s' [E [F C]]].
    exists s'. eexists. split; [exact E|]. split; [apply shifted_moves_one; [exact H|exact F|exact C]|].
    intros i. rewrite F.
    destruct (shifted_extremes i (tsub (pos_min (refresh (s a) ps)) (grid_pad L n pad))
      (s a) ps _ _ Nb (refresh_extremes i (s a) ps Nb)) as [E1 E2].
    rewrite E1. destruct i; unfold grid_pad; cbn [at_axis tsub tmap2 ax0 ax1 ax2]; unfold Rdiv; ring.
Qed.

(** One common shift keeps all separations, within and between the catalogues. *)
Theorem common_shift_keeps_separations :
  forall d p p' q q', moved d p p' -> moved d q q' ->
  forall i, at_axis i (p_pos p') - at_axis i (p_pos q') = at_axis i (p_pos p) - at_axis i (p_pos q).
Proof. intros d p p' q q' [A _] [B _] i. rewrite (A i), (B i). ring. Qed.

Definition inside_axis (i : axis) (boxsize : triple R) (ps : list pdatum) : Prop :=
  forall p, In p ps -> 0 <= at_axis i (p_pos p) <= at_axis i boxsize.

(** When the particles end up inside the box, from the new extents. *)
Lemma inside_extents i L c ps : has c ps -> extents_current c ->
  inside_axis i L ps <-> 0 <= at_axis i (pos_min c) /\ at_axis i (pos_max c) <= at_axis i L.
Proof.
  intros [E N] X. unfold extents_current in X. rewrite E in X. destruct (X i) as [[[p [P1 P2]] [[q [Q1 Q2]] A]] _].
  split.
  - intros I. split; [rewrite <- P2; apply (I p P1)|rewrite <- Q2; apply (I q Q1)].
  - intros [B C] r I. specialize (A r I). lra.
Qed.

Lemma Forall2_In_r {A B} (R : A -> B -> Prop) l l' y : Forall2 R l l' -> In y l' -> exists x, In x l /\ R x y.
Proof.
  induction 1 as [|a b l l' H F IH]; intros I; [destruct I|].
  destruct I as [<-|I]; [exists a; split; [left; reflexivity|exact H]|].
  destruct (IH I) as [x [X1 X2]]. exists x. split; [right; exact X1|exact X2].
Qed.

Lemma extremes_moved i d ps ps' lo hi : Forall2 (moved d) ps ps' -> extremes i ps lo hi ->
  extremes i ps' (lo - d i) (hi - d i).
Proof.
  intros F [[p [P1 P2]] [[q [Q1 Q2]] A]].
  assert (G : forall x, In x ps -> exists y, In y ps' /\ moved d x y).
  { clear - F. induction F as [|a b l l' H F IH]; intros x I; [destruct I|].
    destruct I as [<-|I]; [exists b; split; [left; reflexivity|exact H]|].
    destruct (IH x I) as [y [Y1 Y2]]. exists y. split; [right; exact Y1|exact Y2]. }
  split; [|split].
  - destruct (G p P1) as [y [Y1 [Y2 _]]]. exists y. split; [exact Y1|]. rewrite Y2, P2. reflexivity.
  - destruct (G q Q1) as [y [Y1 [Y2 _]]]. exists y. split; [exact Y1|]. rewrite Y2, Q2. reflexivity.
  - intros r I. destruct (Forall2_In_r _ _ _ _ F I) as [x [X1 [X2 _]]]. rewrite X2. specialize (A x X1). lra.
Qed.

(** Centring: the reference ends inside along an axis exactly when its extent fits, and then so
    does every catalogue particle lying within the reference extents. *)
Theorem centre_inside :
  forall s a b boxsize psa psb i lo hi, a <> b -> has (s a) psa -> has (s b) psb ->
  extremes i psb lo hi ->
  exists s' psa' psb', centre_in_box a b boxsize s = (s', Ok tt) /\ has (s' a) psa' /\ has (s' b) psb' /\
    (inside_axis i boxsize psb' <-> hi - lo <= at_axis i boxsize) /\
    (hi - lo <= at_axis i boxsize -> (forall p, In p psa -> lo <= at_axis i (p_pos p) <= hi) ->
     inside_axis i boxsize psa').
Proof.
  intros s a b L psa psb i lo hi N Ha Hb X.
  destruct (centre_aligns s a b L psa psb N Ha Hb) as [s' [d [E [M Mid]]]].
  destruct M as [[psa' [psb' [Ha' [Hb' [Fa Fb]]]]] [Xa [Xb _]]].
  exists s', psa', psb'. split; [exact E|]. split; [exact Ha'|]. split; [exact Hb'|].
  assert (X' := extremes_moved i d psb psb' lo hi Fb X).
  assert (Y := Xb). unfold extents_current in Y. destruct Hb' as [Eb' Nb']. rewrite Eb' in Y.
  destruct (Y i) as [Y1 _]. destruct (extremes_unique _ _ _ _ _ _ Y1 X') as [Z1 Z2].
  specialize (Mid i). rewrite Z1, Z2 in Mid. split.
  - rewrite (inside_extents i L (s' b) psb' (conj Eb' Nb') Xb). rewrite Z1, Z2. lra.
  - intros Fit In_ p I. destruct (Forall2_In_r _ _ _ _ Fa I) as [q [Q1 [Q2 _]]]. rewrite Q2.
    specialize (In_ q Q1). lra.
Qed.

(** Padding: the reference ends inside exactly when the padding is not negative and the padding
    plus the extent fit the box. *)
Theorem pad_inside :
  forall s a b boxsize ngrid pad psa psb i lo hi, a <> b -> has (s a) psa -> has (s b) psb ->
  extremes i psb lo hi ->
  (exists s' psb', pad_in_box a b boxsize pad s = (s', Ok tt) /\ has (s' b) psb' /\
    (inside_axis i boxsize psb' <->
     0 <= at_axis i pad * at_axis i boxsize /\
     at_axis i pad * at_axis i boxsize + (hi - lo) <= at_axis i boxsize)) /\
  (exists s' psb', pad_grids a b boxsize ngrid pad s = (s', Ok tt) /\ has (s' b) psb' /\
    (inside_axis i boxsize psb' <->
     0 <= at_axis i pad * (at_axis i boxsize / IZR (at_axis i ngrid)) /\
     at_axis i pad * (at_axis i boxsize / IZR (at_axis i ngrid)) + (hi - lo) <= at_axis i boxsize)).
Proof.
  intros s a b L n pad psa psb i lo hi N Ha Hb X. split.
  - destruct (pad_in_box_aligns s a b L pad psa psb N Ha Hb) as [s' [d [E [M Min]]]].
    destruct M as [[psa' [psb' [Ha' [Hb' [Fa Fb]]]]] [Xa [Xb _]]].
    exists s', psb'. split; [exact E|]. split; [exact Hb'|].
    assert (X' := extremes_moved i d psb psb' lo hi Fb X).
    assert (Y := Xb). unfold extents_current in Y. destruct Hb' as [Eb' Nb']. rewrite Eb' in Y.
    destruct (Y i) as [Y1 _]. destruct (extremes_unique _ _ _ _ _ _ Y1 X') as [Z1 Z2].
    specialize (Min i). rewrite (inside_extents i L (s' b) psb' (conj Eb' Nb') Xb).
    rewrite Z2. rewrite Min. rewrite Z1 in Min. lra.
  - destruct (pad_grids_aligns s a b L n pad psa psb N Ha Hb) as [s' [d [E [M Min]]]].
    destruct M as [[psa' [psb' [Ha' [Hb' [Fa Fb]]]]] [Xa [Xb _]]].
    exists s', psb'. split; [exact E|]. split; [exact Hb'|].
    assert (X' := extremes_moved i d psb psb' lo hi Fb X).
    assert (Y := Xb). unfold extents_current in Y. destruct Hb' as [Eb' Nb']. rewrite Eb' in Y.
    destruct (Y i) as [Y1 _]. destruct (extremes_unique _ _ _ _ _ _ Y1 X') as [Z1 Z2].
    specialize (Min i). rewrite (inside_extents i L (s' b) psb' (conj Eb' Nb') Xb).
    rewrite Z2. rewrite Min. rewrite Z1 in Min. lra.
Qed.

(** ** Refutations for C32 *)

(** A store of two catalogues with given diagonal positions. *)
Definition diag (x : R) : pdatum := PDatum (T3 x x x) 1 1 1 1.
Definition cat_of (xs : list R) : catalogue :=
  Catalogue (Some (map diag xs)) 0 0 (T3 0 0 0) (T3 0 0 0) (T3 0 0 0).
Definition store2 (xs ys : list R) : store := fun a => match a with 0%nat => cat_of xs | _ => cat_of ys end.

(** Both extents fit the box, yet the catalogue ends outside it: it is placed by the reference
    alone. *)
Theorem centre_fit_refuted :
  exists s a b boxsize psa psb, a <> b /\ has (s a) psa /\ has (s b) psb /\
    (forall i lo hi, extremes i psa lo hi \/ extremes i psb lo hi -> hi - lo <= at_axis i boxsize) /\
    exists s' psa' p, centre_in_box a b boxsize s = (s', Ok tt) /\ has (s' a) psa' /\ In p psa' /\
      forall i, at_axis i boxsize < at_axis i (p_pos p).
Proof.
  exists (store2 [10; 11] [0; 1]), 0%nat, 1%nat, (T3 4 4 4), (map diag [10; 11]), (map diag [0; 1]).
  assert (Ha : has (store2 [10; 11] [0; 1] 0%nat) (map diag [10; 11])) by (split; [reflexivity|discriminate]).
  assert (Hb : has (store2 [10; 11] [0; 1] 1%nat) (map diag [0; 1])) by (split; [reflexivity|discriminate]).
  split; [discriminate|]. split; [exact Ha|]. split; [exact Hb|]. split.
  - intros i lo hi [X|X]; destruct X as [[p [P1 P2]] [[q [Q1 Q2]] _]];
      destruct P1 as [<-|[<-|[]]]; destruct Q1 as [<-|[<-|[]]]; destruct i; cbn in *; lra.
  - destruct (centre_aligns (store2 [10; 11] [0; 1]) 0 1 (T3 4 4 4) _ _ (Nat.neq_0_succ 0) Ha Hb)
      as [s' [d [E [M Mid]]]].
    destruct M as [[psa' [psb' [Ha' [Hb' [Fa Fb]]]]] [_ [Xb _]]].
    exists s', psa'. inversion Fa as [|p0 p1 l l' Mp F']; subst.
    exists p1. split; [exact E|]. split; [exact Ha'|]. split; [left; reflexivity|].
    intros i. destruct Mp as [Mp _]. rewrite (Mp i).
    assert (X : extremes i (map diag [0; 1]) 0 1).
    { split; [|split].
      - exists (diag 0). split; [left; reflexivity|destruct i; reflexivity].
      - exists (diag 1). split; [right; left; reflexivity|destruct i; reflexivity].
      - intros p I. destruct I as [<-|[<-|[]]]; destruct i; cbn; lra. }
    assert (X' := extremes_moved i d _ _ _ _ Fb X). destruct Hb' as [Eb' Nb'].
    unfold extents_current in Xb. rewrite Eb' in Xb. destruct (Xb i) as [Y1 _].
    destruct (extremes_unique _ _ _ _ _ _ Y1 X') as [Z1 Z2]. specialize (Mid i). rewrite Z1, Z2 in Mid.
    destruct i; cbn in *; lra.
Qed.

(** A catalogue whose extent fits the box ends outside it after padding. *)
Theorem pad_fit_refuted :
  exists s a b boxsize pad psb, a <> b /\ has (s a) psb /\ has (s b) psb /\
    (forall i, 0 < at_axis i pad < 1) /\
    (forall i lo hi, extremes i psb lo hi -> hi - lo <= at_axis i boxsize) /\
    exists s' psb', pad_in_box a b boxsize pad s = (s', Ok tt) /\ has (s' b) psb' /\
      forall i, ~ inside_axis i boxsize psb'.
Proof.
  exists (store2 [0; 4] [0; 4]), 0%nat, 1%nat, (T3 4 4 4), (T3 (1/2) (1/2) (1/2)), (map diag [0; 4]).
  assert (Ha : has (store2 [0; 4] [0; 4] 0%nat) (map diag [0; 4])) by (split; [reflexivity|discriminate]).
  assert (Hb : has (store2 [0; 4] [0; 4] 1%nat) (map diag [0; 4])) by (split; [reflexivity|discriminate]).
  split; [discriminate|]. split; [exact Ha|]. split; [exact Hb|].
  split; [intros i; destruct i; cbn; lra|]. split.
  - intros i lo hi X; destruct X as [[p [P1 P2]] [[q [Q1 Q2]] _]];
      destruct P1 as [<-|[<-|[]]]; destruct Q1 as [<-|[<-|[]]]; destruct i; cbn in *; lra.
  - assert (X : forall i, extremes i (map diag [0; 4]) 0 4).
    { intros i. split; [|split].
      - exists (diag 0). split; [left; reflexivity|destruct i; reflexivity].
      - exists (diag 4). split; [right; left; reflexivity|destruct i; reflexivity].
      - intros p I. destruct I as [<-|[<-|[]]]; destruct i; cbn; lra. }
    destruct (pad_inside (store2 [0; 4] [0; 4]) 0 1 (T3 4 4 4) (T3 1%Z 1%Z 1%Z) (T3 (1/2) (1/2) (1/2)) _ _ AX _ _
                (Nat.neq_0_succ 0) Ha Hb (X AX)) as [[s' [psb' [E [H' _]]]] _].
    exists s', psb'. split; [exact E|]. split; [exact H'|]. intros i I.
    destruct (pad_inside (store2 [0; 4] [0; 4]) 0 1 (T3 4 4 4) (T3 1%Z 1%Z 1%Z) (T3 (1/2) (1/2) (1/2)) _ _ i _ _
                (Nat.neq_0_succ 0) Ha Hb (X i)) as [[s2 [psb2 [E2 [H2 J]]]] _].
    rewrite E in E2. injection E2 as <-. destruct H' as [H' _]. destruct H2 as [H2 _]. rewrite H' in H2. injection H2 as <-.
    apply J in I. destruct i; cbn in I; lra.
Qed.

(** The same object given as catalogue and as reference is shifted twice. *)
Lemma single_run s a xs : has (s a) xs ->
  forall boxsize, exists s', centre_in_box a a boxsize s = (s', Ok tt) /\
    forall i lo hi, extremes i xs lo hi ->
      at_axis i (pos_min (s' a)) + at_axis i (pos_max (s' a)) = 2 * at_axis i boxsize - (lo + hi).
Proof.
  intros H L. unfold centre_in_box. unfold andthen at 1. rewrite (extents_run s a xs H).
  unfold andthen at 1. set (s1 := upd s a _).
  assert (B1 : s1 a = refresh (s a) xs) by (unfold s1; apply upd_same).
  assert (H1 : has (s1 a) xs) by (rewrite B1; apply refresh_has, H).
  rewrite (extents_run s1 a xs H1). unfold andthen at 1, get. cbn [fst snd]. rewrite upd_same.
  set (d := tmap2 _ _ L). set (s2 := upd s1 a _).
  assert (B2 : s2 a = refresh (s a) xs).
  { unfold s2. rewrite upd_same, B1. apply refresh_ext; [apply refresh_weights|apply refresh_weights|apply H]. }
  assert (H2 : has (s2 a) xs) by (rewrite B2; apply refresh_has, H).
  destruct (offset_run s2 a d xs H2) as [s3 [E3 F3]]. unfold andthen at 1. rewrite E3.
  assert (H3 : has (s3 a) (map (shift_pos d) xs)).
  { rewrite F3, Nat.eqb_refl. apply shifted_has, H. }
  destruct (offset_run s3 a d _ H3) as [s4 [E4 F4]]. exists s4. split; [exact E4|].
  intros i lo hi X. rewrite F4, Nat.eqb_refl.
  destruct (shifted_extremes i d (s3 a) (map (shift_pos d) xs) (lo - at_axis i d) (hi - at_axis i d)
              (proj2 H3) (shift_extremes i d xs lo hi X)) as [-> ->].
  assert (D : at_axis i d = (lo + hi) / 2 - at_axis i L / 2).
  { destruct (extremes_unique i xs _ _ _ _ (refresh_extremes i (s1 a) xs (proj2 H)) X) as [P Q].
    unfold d. destruct i; cbn [at_axis tmap2 ax0 ax1 ax2] in *; rewrite P, Q; reflexivity. }
  rewrite D. lra.
Qed.

Theorem centre_alias_refuted :
  exists s a boxsize ps, has (s a) ps /\ (forall i, 0 < at_axis i boxsize) /\
    exists s', centre_in_box a a boxsize s = (s', Ok tt) /\
      forall i, (at_axis i (pos_min (s' a)) + at_axis i (pos_max (s' a))) / 2 <> at_axis i boxsize / 2.
Proof.
  exists (store2 [0; 1] [0; 1]), 0%nat, (T3 4 4 4), (map diag [0; 1]).
  assert (Ha : has (store2 [0; 1] [0; 1] 0%nat) (map diag [0; 1])) by (split; [reflexivity|discriminate]).
  split; [exact Ha|]. split; [intros i; destruct i; cbn; lra|].
  destruct (single_run _ _ _ Ha (T3 4 4 4)) as [s' [E F]]. exists s'. split; [exact E|]. intros i.
  assert (X : extremes i (map diag [0; 1]) 0 1).
  { split; [|split].
    - exists (diag 0). split; [left; reflexivity|destruct i; reflexivity].
    - exists (diag 1). split; [right; left; reflexivity|destruct i; reflexivity].
    - intros p I. destruct I as [<-|[<-|[]]]; destruct i; cbn; lra. }
  rewrite (F i _ _ X). destruct i; cbn; lra.
Qed.

(** ** C33: periodic wrapping *)

Lemma fmod_nonneg L x : 0 < L -> 0 <= x -> 0 <= fmod x L < L.
Proof.
  intros HL Hx. unfold fmod.
  assert (Q : 0 <= x / L) by (apply Rmult_le_pos; [exact Hx|left; apply Rinv_0_lt_compat, HL]).
  destruct (trunc_bounds (x / L) Q) as [A B].
  assert (E : x = L * (x / L)) by (field; lra).
  assert (L * IZR (Ztrunc (x / L)) <= L * (x / L)) by (apply Rmult_le_compat_l; lra).
  assert (L * (x / L) < L * (IZR (Ztrunc (x / L)) + 1)) by (apply Rmult_lt_compat_l; lra). lra.
Qed.

Lemma fmod_neg L x : 0 < L -> x <= 0 -> - L < fmod x L <= 0.
Proof.
  intros HL Hx.
  assert (E : fmod x L = - fmod (- x) L).
  { unfold fmod. replace (- x / L) with (- (x / L)) by (field; lra). rewrite Ztrunc_opp, opp_IZR. ring. }
  rewrite E. destruct (fmod_nonneg L (- x) HL); lra.
Qed.

(** A coordinate ends between 0 and the box size, a whole number of box lengths away.  The box
    size itself is reached, exactly from the negative multiples. *)
Theorem wrap_coord_range :
  forall L x, 0 < L ->
  0 <= wrap_coord L x <= L /\ (exists k : Z, wrap_coord L x = x + IZR k * L) /\
  (0 <= x < L -> wrap_coord L x = x) /\
  (wrap_coord L x = L <-> exists k : Z, (1 <= k)%Z /\ x = - IZR k * L).
Proof.
  intros L x HL. unfold wrap_coord.
  destruct (Rleb L x) eqn:A; [apply Rleb_spec in A|apply Rleb_false in A].
  - destruct (fmod_nonneg L x HL) as [P Q]; [lra|]. split; [lra|]. split; [|split].
    + exists (- Ztrunc (x / L))%Z. unfold fmod. rewrite opp_IZR. ring.
    + lra.
    + split; [lra|]. intros [k [K ->]]. assert (1 <= IZR k) by (apply (IZR_le 1), K).
      assert (0 <= IZR k * L) by (apply Rmult_le_pos; lra). lra.
  - destruct (Rltb x 0) eqn:B; [apply Rltb_spec in B|apply Rltb_false in B].
    + destruct (fmod_neg L x HL) as [P Q]; [lra|]. split; [lra|]. split; [|split].
      * exists (1 - Ztrunc (x / L))%Z. unfold fmod. rewrite minus_IZR. ring.
      * lra.
      * split.
        -- intros E. assert (Z0 : fmod x L = 0) by lra. unfold fmod in Z0.
           exists (- Ztrunc (x / L))%Z. rewrite opp_IZR.
           assert (X : x = IZR (Ztrunc (x / L)) * L) by lra. split; [|lra].
           apply le_IZR. assert (IZR (Ztrunc (x / L)) < 0).
           { apply (Rmult_lt_reg_r L); lra. }
           apply (lt_IZR _ 0) in H. apply IZR_le. lia.
        -- intros [k [K E]]. unfold fmod. replace (x / L) with (IZR (- k)); [rewrite Ztrunc_IZR, opp_IZR; lra|].
           rewrite opp_IZR, E. field. lra.
    + split; [lra|]. split; [exists 0%Z; ring|]. split; [reflexivity|]. split; [lra|].
      intros [k [K ->]]. assert (1 <= IZR k) by (apply (IZR_le 1), K).
      assert (1 * L <= IZR k * L) by (apply Rmult_le_compat_r; lra). lra.
Qed.

(** The half-open range of the property fails. *)
Theorem wrap_coord_half_open_refuted :
  exists L x, 0 < L /\ ~ (0 <= wrap_coord L x < L).
Proof.
  exists 4, (-4). split; [lra|]. intros [_ H].
  destruct (wrap_coord_range 4 (-4)) as [_ [_ [_ [_ E]]]]; [lra|].
  rewrite E in H; [lra|]. exists 1%Z. split; [lia|lra].
Qed.

(** Wrapping a second time reaches the half-open box. *)
Theorem wrap_twice :
  forall L x, 0 < L -> 0 <= wrap_coord L (wrap_coord L x) < L /\
    (wrap_coord L x <> L -> wrap_coord L (wrap_coord L x) = wrap_coord L x).
Proof.
  intros L x HL. destruct (wrap_coord_range L x HL) as [[A B] _].
  destruct (Rlt_le_dec (wrap_coord L x) L) as [H|H].
  - destruct (wrap_coord_range L (wrap_coord L x) HL) as [_ [_ [C _]]]. rewrite C by lra. split; [lra|reflexivity].
  - assert (E : wrap_coord L x = L) by lra. rewrite E. split; [|congruence].
    unfold wrap_coord. destruct (Rleb L L) eqn:Q; [|apply Rleb_false in Q; lra].
    apply fmod_nonneg; lra.
Qed.

Lemma wrap_axis i L p : at_axis i (tmap2 wrap_coord L p) = wrap_coord (at_axis i L) (at_axis i p).
Proof. destruct i; reflexivity. Qed.

(** Particle [p'] is [p] moved by whole box lengths. *)
Definition wrapped (L : triple R) (p p' : pdatum) : Prop :=
  (forall i, 0 <= at_axis i (p_pos p') <= at_axis i L /\
             exists k : Z, at_axis i (p_pos p') = at_axis i (p_pos p) + IZR k * at_axis i L) /\
  p_nz p' = p_nz p /\ p_ws p' = p_ws p /\ p_wc p' = p_wc p /\ p_w p' = p_w p.

(** The catalogue method: every particle is wrapped, extents are kept current, other catalogues
    untouched. *)
Lemma periodicity_run s a L ps : has (s a) ps ->
  exists s', offset_coords_for_periodicity a L s = (s', Ok tt) /\
    (forall b, s' b = if Nat.eqb b a then refresh (s a)
        (map (fun p => PDatum (tmap2 wrap_coord L (p_pos p)) (p_nz p) (p_ws p) (p_wc p) (p_w p)) ps) else s b).
Proof.
  intros [E N]. unfold offset_coords_for_periodicity, andthen, get at 1. rewrite E.
  unfold set_pdata, andthen, get at 1, put. cbn [fst snd].
  set (s1 := upd s a _). set (ps' := map _ ps).
  assert (H : has (s1 a) ps').
  { unfold s1. rewrite upd_same. split; [reflexivity|apply map_nonempty, N]. }
  rewrite (extents_run s1 a _ H). eexists. split; [reflexivity|].
  intros b. unfold upd at 1. destruct (Nat.eqb b a) eqn:Q.
  - unfold s1. rewrite upd_same. apply refresh_ext; try reflexivity. apply map_nonempty, N.
  - unfold s1. apply Nat.eqb_neq in Q. apply upd_other, Q.
Qed.

Theorem periodicity_wraps :
  forall s a L ps, has (s a) ps -> (forall i, 0 < at_axis i L) ->
  exists s' ps', offset_coords_for_periodicity a L s = (s', Ok tt) /\ has (s' a) ps' /\
    Forall2 (wrapped L) ps ps' /\ extents_current (s' a) /\
    (wtotal (s' a) = wtotal (s a) /\ wstotal (s' a) = wstotal (s a)) /\
    (forall b, b <> a -> s' b = s b).
Proof.
  intros s a L ps H HL. destruct (periodicity_run s a L ps H) as [s' [E F]].
  exists s'. eexists. split; [exact E|]. rewrite F, Nat.eqb_refl.
  split; [|split; [|split; [|split]]].
  - apply refresh_has, map_nonempty, H.
  - clear - HL. induction ps as [|p ps IH]; cbn [map]; constructor; [|exact IH].
    split; [|repeat split]. intros i. cbn [p_pos]. rewrite wrap_axis.
    destruct (wrap_coord_range (at_axis i L) (at_axis i (p_pos p)) (HL i)) as [A [B _]]. split; assumption.
  - apply refresh_current, map_nonempty, H.
  - apply refresh_weights.
  - intros b Nb. rewrite F. apply Nat.eqb_neq in Nb. rewrite Nb. reflexivity.
Qed.

(** The consequence on the mesh: a particle one box length below the origin is wrapped to the
    upper face, and nearest-grid-point and cloud-in-cell assignment then drop its weight. *)
Theorem wrapped_particle_lost_refuted :
  exists (g : mesh_params) (p : particle),
    (forall i, (0 < at_axis i (ngrid g))%Z /\ 0 < at_axis i (boxsize g)) /\ 0 < vol_cell g /\
    w_re p = 1 /\
    forall sch, sch = NGP \/ sch = CIC ->
    forall gid, assign_main sch g [Particle (tmap2 wrap_coord (boxsize g) (pos p)) (w_re p) (w_im p)] gid false = 0.
Proof.
  exists (MeshParams (T3 4%Z 4%Z 4%Z) (T3 4 4 4) 1), (Particle (T3 (-4) 1 1) 1 0).
  split; [intros i; destruct i; cbn; split; (lia || lra)|]. split; [cbn; lra|]. split; [reflexivity|].
  assert (W : wrap_coord 4 (-4) = 4).
  { destruct (wrap_coord_range 4 (-4)) as [_ [_ [_ [_ E]]]]; [lra|]. apply E. exists 1%Z. split; [lia|lra]. }
  assert (W1 : wrap_coord 4 1 = 1). { apply wrap_coord_range; lra. }
  intros sch Hs gid. unfold tmap2; cbn [boxsize pos w_re w_im ax0 ax1 ax2]. rewrite W, W1.
  unfold assign_main, updates_main. cbn [flat_map boxsize ngrid pos ax0 ax1 ax2]. rewrite app_nil_r.
  assert (G4 : grid_loc 4 4 4 = IZR 4) by (unfold grid_loc; field).
  assert (G1 : grid_loc 4 4 1 = IZR 1) by (unfold grid_loc; field).
  rewrite G4, G1.
  assert (E : particle_updates (MeshParams (T3 4%Z 4%Z 4%Z) (T3 4 4 4) 1) (cells sch 4 (IZR 4)) (cells sch 4 (IZR 1))
     (cells sch 4 (IZR 1)) {| pos := T3 4 1 1; w_re := 1; w_im := 0 |} = []).
  { destruct Hs as [-> | ->]; cbn [cells]; unfold cells_ngp, cells_cic; rewrite !Ztrunc_IZR.
    - destruct (Rleb (1 / 2) (IZR 4 - IZR 4)) eqn:A; [apply Rleb_spec in A; lra|].
      destruct (Rleb (1 / 2) (IZR 1 - IZR 1)) eqn:B; [apply Rleb_spec in B; lra|]. reflexivity.
    - reflexivity. }
  rewrite E. reflexivity.
Qed.

(** ** C34: attributes in step with the particles *)

(** The catalogue operations of the C++ class. *)
Inductive cat_op : Type :=
| OpLoad (a : nat) (x y z nz ws wc : list R)
| OpOffset (a : nat) (d : triple R)
| OpPeriodic (a : nat) (L : triple R)
| OpCentre1 (a : nat) (L : triple R)
| OpCentre (a b : nat) (L : triple R)
| OpPad1 (a : nat) (L pad : triple R)
| OpPad (a b : nat) (L pad : triple R)
| OpPadGrids1 (a : nat) (L : triple R) (n : triple Z) (pad : triple R)
| OpPadGrids (a b : nat) (L : triple R) (n : triple Z) (pad : triple R).

Definition run_op (o : cat_op) : act unit :=
  match o with
  | OpLoad a x y z nz ws wc => load_particle_data a x y z nz ws wc
  | OpOffset a d => offset_coords a d
  | OpPeriodic a L => offset_coords_for_periodicity a L
  | OpCentre1 a L => centre_in_box1 a L
  | OpCentre a b L => centre_in_box a b L
  | OpPad1 a L pad => pad_in_box1 a L pad
  | OpPad a b L pad => pad_in_box a b L pad
  | OpPadGrids1 a L n pad => pad_grids1 a L n pad
  | OpPadGrids a b L n pad => pad_grids a b L n pad
  end.

(** Stores reached from new catalogues by any sequence of operations, failed ones included. *)
Inductive reached : store -> Prop :=
| reached_new : reached (fun _ => catalogue_new)
| reached_op s o : reached s -> reached (fst (run_op o s)).

Definition in_step (c : catalogue) : Prop :=
  pdata c <> Some [] /\ extents_current c /\ weights_current c.

Definition good (s : store) : Prop := forall a, in_step (s a).
Definition preserves {A} (m : act A) : Prop := forall s, good s -> good (fst (m s)).

Lemma preserves_andthen {A B} (m : act A) (f : A -> act B) :
  preserves m -> (forall x, preserves (f x)) -> preserves (andthen m f).
Proof.
  intros P Q s G. unfold andthen. specialize (P s G). destruct (m s) as [s' [x|e]]; cbn [fst] in *.
  - apply Q, P.
  - exact P.
Qed.

Lemma preserves_get a : preserves (get a).
Proof. intros s G. exact G. Qed.

Lemma good_upd s a c : good s -> in_step c -> good (upd s a c).
Proof. intros G C b. unfold upd. destruct (Nat.eqb b a); [exact C|apply G]. Qed.

Lemma refresh_in_step c ps : ps <> [] -> wtotal c = rsum (map p_w ps) -> wstotal c = rsum (map p_ws ps) ->
  in_step (refresh c ps).
Proof.
  intros N A B. split; [rewrite refresh_pdata by exact N; congruence|]. split; [apply refresh_current, N|].
  unfold weights_current. rewrite refresh_pdata by exact N. destruct (refresh_weights c ps) as [-> ->]. auto.
Qed.

Lemma preserves_extents a : preserves (calc_pos_extents a).
Proof.
  intros s G. destruct (pdata (s a)) as [ps|] eqn:E.
  - assert (G' := G a). destruct G' as [N [X W]]. rewrite E in N.
    assert (Nn : ps <> []) by congruence.
    rewrite (extents_run s a ps (conj E Nn)). cbn [fst]. apply good_upd; [exact G|].
    unfold weights_current in W. rewrite E in W. apply refresh_in_step; tauto.
  - unfold calc_pos_extents, andthen, get. rewrite E. exact G.
Qed.

Lemma map_weights (f : pdatum -> pdatum) ps : (forall p, p_w (f p) = p_w p) -> (forall p, p_ws (f p) = p_ws p) ->
  map p_w (map f ps) = map p_w ps /\ map p_ws (map f ps) = map p_ws ps.
Proof. intros A B. rewrite !map_map. split; apply map_ext; assumption. Qed.

Lemma preserves_offset a d : preserves (offset_coords a d).
Proof.
  intros s G. destruct (pdata (s a)) as [ps|] eqn:E.
  - assert (G' := G a). destruct G' as [N [X W]]. rewrite E in N. assert (Nn : ps <> []) by congruence.
    destruct (offset_run s a d ps (conj E Nn)) as [s' [R F]]. rewrite R. cbn [fst].
    intros b. rewrite F. destruct (Nat.eqb b a); [|apply G].
    unfold weights_current in W. rewrite E in W. unfold shifted.
    destruct (map_weights (shift_pos d) ps) as [M1 M2]; [reflexivity|reflexivity|].
    apply refresh_in_step; [apply map_nonempty, Nn|rewrite M1; tauto|rewrite M2; tauto].
  - unfold offset_coords, andthen, get. rewrite E. exact G.
Qed.

Lemma preserves_periodic a L : preserves (offset_coords_for_periodicity a L).
Proof.
  intros s G. destruct (pdata (s a)) as [ps|] eqn:E.
  - assert (G' := G a). destruct G' as [N [X W]]. rewrite E in N. assert (Nn : ps <> []) by congruence.
    destruct (periodicity_run s a L ps (conj E Nn)) as [s' [R F]]. rewrite R. cbn [fst].
    intros b. rewrite F. destruct (Nat.eqb b a); [|apply G].
    unfold weights_current in W. rewrite E in W.
    match goal with |- in_step (refresh _ (map ?f ps)) =>
      destruct (map_weights f ps) as [M1 M2]; [reflexivity|reflexivity|] end.
    apply refresh_in_step; [apply map_nonempty, Nn|rewrite M1; tauto|rewrite M2; tauto].
  - unfold offset_coords_for_periodicity, andthen at 1, get at 1. rewrite E. apply preserves_extents, G.
Qed.

Lemma zip_length x y z nz ws wc : length x = length y -> length x = length z -> length x = length nz ->
  length x = length ws -> length x = length wc -> length (zip_columns x y z nz ws wc) = length x.
Proof.
  revert y z nz ws wc. induction x as [|x0 x IH]; intros [|] [|] [|] [|] [|] A B C D E; try discriminate; [reflexivity|].
  cbn [zip_columns length] in *. f_equal. apply IH; lia.
Qed.

(** Loading columns: equal, positive lengths are needed and enough; the particles are the rows in
    order, the weight is the product, totals and extents are those of the particles. *)
Theorem load_particle_data_spec :
  forall s a x y z nz ws wc,
  let n := length x in
  (length y = n /\ length z = n /\ length nz = n /\ length ws = n /\ length wc = n /\ (0 < n)%nat ->
   exists s' ps, load_particle_data a x y z nz ws wc s = (s', Ok tt) /\ has (s' a) ps /\ length ps = n /\
     (forall k p, nth_error ps k = Some p ->
        nth_error x k = Some (ax0 (p_pos p)) /\ nth_error y k = Some (ax1 (p_pos p)) /\
        nth_error z k = Some (ax2 (p_pos p)) /\ nth_error nz k = Some (p_nz p) /\
        nth_error ws k = Some (p_ws p) /\ nth_error wc k = Some (p_wc p) /\ p_w p = p_ws p * p_wc p) /\
     wtotal (s' a) = rsum (map p_w ps) /\ wstotal (s' a) = rsum (map p_ws ps) /\
     extents_current (s' a) /\ (forall b, b <> a -> s' b = s b)) /\
  (~ (length y = n /\ length z = n /\ length nz = n /\ length ws = n /\ length wc = n) ->
   load_particle_data a x y z nz ws wc s = (s, Err InvalidData)) /\
  (length y = n /\ length z = n /\ length nz = n /\ length ws = n /\ length wc = n -> n = 0%nat ->
   load_particle_data a x y z nz ws wc s = (s, Err InvalidParameter)).
Proof.
  intros s a x y z nz ws wc n. unfold load_particle_data. fold n.
  destruct (Nat.eqb n (length y) && Nat.eqb n (length z) && Nat.eqb n (length nz)
            && Nat.eqb n (length ws) && Nat.eqb n (length wc))%bool eqn:Q.
  - rewrite !andb_true_iff, !Nat.eqb_eq in Q. destruct Q as [[[[Q1 Q2] Q3] Q4] Q5]. cbn [negb].
    split; [|split].
    + intros [_ [_ [_ [_ [_ P]]]]]. assert (N0 : Nat.eqb n 0 = false) by (apply Nat.eqb_neq; lia). rewrite N0.
      set (ps := zip_columns x y z nz ws wc).
      assert (Len : length ps = n) by (unfold ps, n; apply zip_length; assumption).
      assert (Nn : ps <> []) by (intros Z; rewrite Z in Len; cbn in Len; lia).
      unfold set_pdata, andthen, get, put. cbn [fst snd].
      unfold calc_total_weights, andthen, get, put. cbn [fst snd]. rewrite upd_same. cbn [pdata].
      set (s2 := upd (upd s a _) a _).
      assert (H2 : has (s2 a) ps) by (unfold s2; rewrite upd_same; split; [reflexivity|exact Nn]).
      rewrite (extents_run s2 a ps H2).
      exists (upd s2 a (refresh (s2 a) ps)), ps. split; [reflexivity|]. rewrite upd_same.
      split; [apply refresh_has, Nn|]. split; [exact Len|]. split.
      { clear - Q1 Q2 Q3 Q4 Q5. unfold ps. subst n. clear ps.
        revert y z nz ws wc Q1 Q2 Q3 Q4 Q5.
        induction x as [|x0 x IH]; intros [|y0 y] [|z0 z] [|n0 nz] [|s0 ws] [|c0 wc] Q1 Q2 Q3 Q4 Q5 k p E; try discriminate.
        - destruct k; discriminate.
        - cbn [zip_columns length] in *. destruct k as [|k]; cbn [nth_error] in *.
          + injection E as <-. repeat split.
          + apply IH; [lia|lia|lia|lia|lia|exact E]. }
      destruct (refresh_weights (s2 a) ps) as [-> ->].
      split; [unfold s2; rewrite upd_same; reflexivity|]. split; [unfold s2; rewrite upd_same; reflexivity|].
      split; [apply refresh_current, Nn|].
      intros b Nb. rewrite upd_other by exact Nb. unfold s2. rewrite !upd_other by exact Nb. reflexivity.
    + intros H. exfalso. apply H. repeat split; congruence.
    + intros _ Z. rewrite Z. reflexivity.
  - cbn [negb]. assert (Bad : ~ (length y = n /\ length z = n /\ length nz = n /\ length ws = n /\ length wc = n)).
    { intros [A [B [C [D E]]]]. rewrite A, B, C, D, E, !Nat.eqb_refl in Q. discriminate. }
    split; [|split].
    + intros H. exfalso. apply Bad. tauto.
    + intros _. reflexivity.
    + intros H. contradiction.
Qed.

Lemma preserves_load a x y z nz ws wc : preserves (load_particle_data a x y z nz ws wc).
Proof.
  intros s G. destruct (load_particle_data_spec s a x y z nz ws wc) as [L1 [L2 L3]].
  destruct (Nat.eq_dec (length y) (length x)) as [A|A]; [|rewrite L2 by tauto; exact G].
  destruct (Nat.eq_dec (length z) (length x)) as [B|B]; [|rewrite L2 by tauto; exact G].
  destruct (Nat.eq_dec (length nz) (length x)) as [C|C]; [|rewrite L2 by tauto; exact G].
  destruct (Nat.eq_dec (length ws) (length x)) as [D|D]; [|rewrite L2 by tauto; exact G].
  destruct (Nat.eq_dec (length wc) (length x)) as [E|E]; [|rewrite L2 by tauto; exact G].
  destruct (Nat.eq_dec (length x) 0) as [Z|Z]; [rewrite L3 by tauto; exact G|].
  destruct L1 as [s' [ps [R [[H1 H2] [_ [_ [W1 [W2 [X F]]]]]]]]]; [repeat split; (assumption || lia)|].
  rewrite R. cbn [fst]. intros b. destruct (Nat.eq_dec b a) as [->|Nb]; [|rewrite F by exact Nb; apply G].
  split; [rewrite H1; congruence|]. split; [exact X|]. unfold weights_current. rewrite H1. auto.
Qed.

Ltac pres := cbv zeta; repeat first
  [ apply preserves_get | apply preserves_extents | apply preserves_offset
  | apply preserves_andthen; [|intros ?] ].

(** After any sequence of operations, failed or not, every catalogue object keeps extents and
    totals that are those of its particles, and never holds an empty particle array. *)
Theorem catalogues_in_step : forall s, reached s -> forall a, in_step (s a).
Proof.
  intros s H. induction H as [|s o H IH].
  - intros a. split; [discriminate|]. split; exact I.
  - apply (fun P : preserves (run_op o) => P s IH). clear.
    destruct o; cbn [run_op].
    + apply preserves_load.
    + apply preserves_offset.
    + apply preserves_periodic.
    + unfold centre_in_box1. pres.
    + unfold centre_in_box. pres.
    + unfold pad_in_box1. pres.
    + unfold pad_in_box. pres.
    + unfold pad_grids1. pres.
    + unfold pad_grids. pres.
Qed.

(** ** Concrete case *)
Example alignment_case :
  exists s s', reached s /\ reached s' /\ (forall i, at_axis i (pos_min (s 1%nat)) = -2 /\ at_axis i (pos_max (s 1%nat)) = 4) /\
    centre_in_box 0 1 (T3 10 10 10) s = (s', Ok tt) /\
    (forall i, at_axis i (pos_min (s' 1%nat)) = 2 /\ at_axis i (pos_max (s' 1%nat)) = 8 /\
               at_axis i (pos_min (s' 0%nat)) = 5 /\ at_axis i (pos_max (s' 0%nat)) = 6) /\
    wtotal (s' 0%nat) = 5.
Proof.
  set (s0 := fun _ : nat => catalogue_new).
  destruct (load_particle_data_spec s0 0 [1; 2] [1; 2] [1; 2] [1; 1] [1; 2] [1; 2]) as [L _].
  destruct L as [s1 [ps [R1 [H1 [N1 [Rows1 [W1 [_ [X1 F1]]]]]]]]]; [repeat split; cbn; lia|].
  destruct (load_particle_data_spec s1 1 [4; -2; 0] [4; -2; 0] [4; -2; 0] [1; 1; 1] [1; 1; 1] [1; 1; 1]) as [L _].
  destruct L as [s2 [qs [R2 [H2 [N2 [Rows2 [W2 [_ [X2 F2]]]]]]]]]; [repeat split; cbn; lia|].
  assert (K0 : reached s0) by constructor.
  assert (K1 : reached s1).
  { replace s1 with (fst (run_op (OpLoad 0 [1; 2] [1; 2] [1; 2] [1; 1] [1; 2] [1; 2]) s0));
      [constructor; exact K0|]. cbn [run_op]. rewrite R1. reflexivity. }
  assert (K2 : reached s2).
  { replace s2 with (fst (run_op (OpLoad 1 [4; -2; 0] [4; -2; 0] [4; -2; 0] [1; 1; 1] [1; 1; 1] [1; 1; 1]) s1));
      [constructor; exact K1|]. cbn [run_op]. rewrite R2. reflexivity. }
  destruct ps as [|p0 [|p1 [|? ?]]]; try discriminate.
  destruct qs as [|q0 [|q1 [|q2 [|? ?]]]]; try discriminate.
  destruct (Rows1 0%nat p0 eq_refl) as [P0x [P0y [P0z [_ [P0s [P0c P0w]]]]]].
  destruct (Rows1 1%nat p1 eq_refl) as [P1x [P1y [P1z [_ [P1s [P1c P1w]]]]]].
  destruct (Rows2 0%nat q0 eq_refl) as [Q0x [Q0y [Q0z _]]].
  destruct (Rows2 1%nat q1 eq_refl) as [Q1x [Q1y [Q1z _]]].
  destruct (Rows2 2%nat q2 eq_refl) as [Q2x [Q2y [Q2z _]]].
  cbn [nth_error] in *.
  assert (XP : forall i, extremes i [p0; p1] 1 2).
  { intros i. split; [|split].
    - exists p0. split; [left; reflexivity|]. destruct i; cbn; congruence.
    - exists p1. split; [right; left; reflexivity|]. destruct i; cbn; congruence.
    - intros p [<-|[<-|[]]]; destruct i; cbn;
        repeat match goal with E : Some _ = Some _ |- _ => injection E as E end; lra. }
  assert (XQ : forall i, extremes i [q0; q1; q2] (-2) 4).
  { intros i. split; [|split].
    - exists q1. split; [right; left; reflexivity|]. destruct i; cbn; congruence.
    - exists q0. split; [left; reflexivity|]. destruct i; cbn; congruence.
    - intros p [<-|[<-|[<-|[]]]]; destruct i; cbn;
        repeat match goal with E : Some _ = Some _ |- _ => injection E as E end; lra. }
  assert (H20 : has (s2 0%nat) [p0; p1]) by (rewrite F2 by discriminate; exact H1).
  destruct (centre_aligns s2 0 1 (T3 10 10 10) _ _ (Nat.neq_0_succ 0) H20 H2) as [s3 [d [E3 [M Mid]]]].
  exists s2, s3. split; [exact K2|]. split.
  { replace s3 with (fst (run_op (OpCentre 0 1 (T3 10 10 10)) s2)); [constructor; exact K2|].
    cbn [run_op]. rewrite E3. reflexivity. }
  split.
  { intros i. unfold extents_current in X2. rewrite (proj1 H2) in X2.
    apply (extremes_unique i [q0; q1; q2] _ _ _ _ (proj1 (X2 i)) (XQ i)). }
  split; [exact E3|].
  destruct M as [[psa' [psb' [Ha' [Hb' [Fa Fb]]]]] [Xa [Xb [[Wa _] _]]]]. split.
  - intros i. assert (YB := extremes_moved i d _ _ _ _ Fb (XQ i)). assert (YA := extremes_moved i d _ _ _ _ Fa (XP i)).
    unfold extents_current in Xa, Xb. rewrite (proj1 Ha') in Xa. rewrite (proj1 Hb') in Xb.
    destruct (extremes_unique _ _ _ _ _ _ (proj1 (Xb i)) YB) as [Z1 Z2].
    destruct (extremes_unique _ _ _ _ _ _ (proj1 (Xa i)) YA) as [Z3 Z4].
    specialize (Mid i). rewrite Z1, Z2 in Mid. rewrite Z1, Z2, Z3, Z4. destruct i; cbn in Mid; lra.
  - rewrite Wa, F2 by discriminate. rewrite W1. cbn [map]. rewrite P0w, P1w.
    repeat match goal with E : Some _ = Some _ |- _ => injection E as E end.
    rewrite <- P0s, <- P0c, <- P1s, <- P1c. rewrite !rsum_cons, rsum_nil. lra.
Qed.

Print Assumptions centre_inside.
Print Assumptions wrapped_particle_lost_refuted.
Print Assumptions catalogues_in_step.
