(* C121: vectors recorded from Python are those of the mesh asked for. *)
From Coq Require Import String List ZArith Reals Bool Lia Lra Permutation Sorted.
From Verif Require Import Base StrModel Dec ArrayModel ArrayProofs BinningModel BinningProps MeshModel
  BinVecModel BinVecProps ParamModel ParamProps ParamValProps PyParamModel PyParamProofs
  PyParamAgainProps PyParamProps PyAmalgModel PyAmalgProps FieldMeshModel.
From Verif Require MainModel.
Import ListNotations.
#[local] Open Scope string_scope.

Definition filled (bn : py_binning) (a b c : R) (i j k : Z) : dict :=
  dset "ngrid" (axes (VInt i) (VInt j) (VInt k))
    (dset "boxsize" (axes (VNum a) (VNum b) (VNum c)) (filler bn)).

Definition filled_params (lo hi : R) (n : Z) (a b c : R) (i j k : Z) (v : R) (m : Z) : params :=
  {| pths := pths cpp_default;
     smp := {| boxsize := T3 a b c; ngrid := T3 i j k; expand := 1%R; cutoff_nyq := 0%R;
               alignment := "centre"; padscale := "box"; padfactor := 0%R; assignment := "tsc";
               interlace := "false"; volume := v; nmesh := m; assignment_order := 0%Z |};
     msr := {| catalogue_type := ""; statistic_type := ""; npoint := ""; space := "";
               ell1 := 0%Z; ell2 := 0%Z; ELL := 0%Z; form := "diag";
               norm_convention := "particle"; shape := "diag"; binning := "lin";
               bin_min := lo; bin_max := hi; num_bins := n; idx_bin := 0%Z |};
     msc := msc cpp_default |}.

Lemma filled_pre e bn lo hi n a b c i j k :
  p_min bn = Some lo -> p_max bn = Some hi -> p_num bn = Some n ->
  (i * j * k <> 0)%Z ->
  exists d1 v m, parse_pre e cpp_default "false" (filled bn a b c i j k) =
    (d1, Ok (filled_params lo hi n a b c i j k v m, "false")).
Proof.
  intros L H N NZ. unfold filled, filler. rewrite L, H, N. clear L H N bn.
  unfold parse_pre. do 3 eexists.
  do 13 (eapply bindM_ok; do 2 eexists; split; [lazy; reflexivity|]).
  do 2 (eapply bindM_ok; do 2 eexists; split; [lazy -[Rmult Z.mul]; reflexivity|]).
  do 8 (eapply bindM_ok; do 2 eexists; split; [lazy -[Rmult Z.mul]; reflexivity|]).
  eapply bindM_ok. do 2 eexists. split.
  { unfold m_cutoff. rewrite (proj2 (Z.eqb_neq _ 0)) by lia. reflexivity. }
  do 12 (eapply bindM_ok; do 2 eexists; split; [lazy -[Rmult Z.mul]; reflexivity|]).
  reflexivity.
Qed.

Lemma filled_head b lo hi n x y z i j k v m :
  extcall b = true ->
  exists h, val_head b true (filled_params lo hi n x y z i j k v m) = Ok h /\
    msr h = msr (filled_params lo hi n x y z i j k v m) /\
    alignment (smp h) = "centre" /\ interlace (smp h) = "false" /\
    boxsize (smp h) = T3 x y z /\ ngrid (smp h) = T3 i j k.
Proof.
  destruct b as [ext gp omp env]. cbn [extcall]. intros ->.
  destruct gp; (eexists; split; [lazy -[Rmult Z.mul]; reflexivity|]);
    split; try reflexivity; repeat split.
Qed.

Lemma bins_refused m : val_bins m = Ok tt \/ val_bins m = Err InvalidParameter.
Proof. unfold val_bins. repeat match goal with |- context [if ?b then _ else _] => destruct b end; auto. Qed.

Lemma filled_runs fuel e bn lo hi n a b c i j k :
  extcall (lib e) = true ->
  p_min bn = Some lo -> p_max bn = Some hi -> p_num bn = Some n -> (0 < i * j * k)%Z ->
  ((0 <= lo < hi)%R -> (2 <= n)%Z -> exists q, cpp_of (construct fuel e (filled bn a b c i j k)) = Ok q /\
     boxsize (smp q) = T3 a b c /\ ngrid (smp q) = T3 i j k) /\
  (~ ((0 <= lo < hi)%R /\ (2 <= n)%Z) ->
     cpp_of (construct fuel e (filled bn a b c i j k)) = Err ValueError).
Proof.
  intros X L H N NZ.
  destruct (filled_pre e bn lo hi n a b c i j k L H N ltac:(lia)) as (d1 & v & m & P).
  destruct (filled_head (lib e) lo hi n a b c i j k v m X) as (h & HH & M & A & I & B & G).
  assert (V : validate fuel (lib e) true (filled_params lo hi n a b c i j k v m) =
              (_ <- val_bins (msr h) ;; Ok (tail_result h))).
  { rewrite (validate_direct fuel (lib e) true _ h HH);
      [|right; exact NZ|intros _; cbn; lra|intros; cbn in *; unfold cells in *; cbn in *; lia].
    unfold val_tail, val_pad. rewrite A. cbn [bind String.eqb]. reflexivity. }
  assert (IFF : val_bins (msr h) = Ok tt <-> ((0 <= lo < hi)%R /\ (2 <= n)%Z)).
  { rewrite ParamValProps.bins_ok, M. cbn. split; [tauto|]. intros [Q1 Q2].
    split; [lra|]. split; [exact Q2|]. split; [intuition discriminate|]. split; [lia|]. intros; lia. }
  split.
  - intros Q1 Q2.
    unfold cpp_of, construct, parse. unfold bindM at 1. rewrite P. cbn [fst snd].
    unfold bindM at 1, readM, cpp_validate. rewrite V. rewrite (proj2 IFF (conj Q1 Q2)). cbn [bind].
    exists (tail_result h).
    assert (IT : lower (interlace (smp (tail_result h))) = "false").
    { unfold tail_result. cbn [smp]. rewrite I. cbn [String.eqb Ascii.eqb Bool.eqb]. rewrite andb_false_r, I. reflexivity. }
    assert (BT : smp (tail_result h) = smp h).
    { unfold tail_result. cbn [smp]. rewrite I. cbn [String.eqb Ascii.eqb Bool.eqb]. now rewrite andb_false_r. }
    rewrite BT. split; [|now split].
    unfold m_fetch. cbv zeta. rewrite IT. reflexivity.
  - intros Q.
    unfold cpp_of, construct, parse. unfold bindM at 1. rewrite P. cbn [fst snd].
    unfold bindM at 1, readM, cpp_validate. rewrite V. destruct (bins_refused (msr h)) as [Y|Y]; [tauto|]. rewrite Y. reflexivity.
Qed.

(* ------------------------------------------------------------------ *)
(** * Vocabulary *)

(** One number for a cube, or one for each axis. *)
Definition box_given (v : pyval) (a b c : R) : Prop :=
  v = VNum a /\ b = a /\ c = a \/ v = VList [VNum a; VNum b; VNum c].
Definition grid_given (v : pyval) (i j k : Z) : Prop :=
  v = VInt i /\ j = i /\ k = i \/ v = VList [VInt i; VInt j; VInt k].

Definition shows_box (d : dict) (a b c : R) : Prop :=
  dget "boxsize" d = Some (VDict [("x", VNum a); ("y", VNum b); ("z", VNum c)]).
Definition shows_grid (d : dict) (i j k : Z) : Prop :=
  dget "ngrid" d = Some (VDict [("x", VInt i); ("y", VInt j); ("z", VInt k)]).

(** The mesh asked for: the arguments come before the entries [d]. *)
Definition box_asked (box : option pyval) (d : dict) (a b c : R) : Prop :=
  match box with Some v => box_given v a b c | None => shows_box d a b c end.
Definition grid_asked (grid : option pyval) (d : dict) (i j k : Z) : Prop :=
  match grid with Some v => grid_given v i j k | None => shows_grid d i j k end.

Definition mesh_is (q : params) (a b c : R) (i j k : Z) : Prop :=
  boxsize (smp q) = T3 a b c /\ ngrid (smp q) = T3 i j k.

(* ------------------------------------------------------------------ *)
(** * Parsing keeps the mesh *)

Lemma pre_grid e c b d d' p pb :
  parse_pre e c b d = (d', Ok (p, pb)) -> nmesh (smp p) <> 0%Z -> dget "ngrid" d' = dget "ngrid" d.
Proof.
  unfold parse_pre. intros H.
  apply bindM_ok in H as (d1 & cdir & P1 & H).
  apply bindM_ok in H as (d2 & mdir & P2 & H).
  apply bindM_ok in H as (d3 & dfile & P3 & H).
  apply bindM_ok in H as (d4 & rfile & P4 & H).
  apply bindM_ok in H as (d5 & tag & P5 & H).
  cbv zeta in H.
  do 8 (let x := fresh "x" in let G := fresh "G" in
        apply bindM_ok in H as (? & x & G & H); apply readM_ok in G as [-> G]).
  apply bindM_ok in H as (d6 & vl & V & H).
  apply bindM_ok in H as (d7 & nm & W & H).
  do 8 (let x := fresh "y" in let G := fresh "G" in
        apply bindM_ok in H as (? & x & G & H); apply readM_ok in G as [-> G]).
  apply bindM_ok in H as (d8 & cut & K & H).
  do 12 (let x := fresh "z" in let G := fresh "G" in
        apply bindM_ok in H as (? & x & G & H); apply readM_ok in G as [-> G]).
  injection H as <- <- <-. cbn [smp nmesh]. intros N.
  assert (A5 : agree ["directories"; "files"; "tags"] d d5).
  { assert (B1 := writes_path "directories" "catalogues" ["directories"; "files"; "tags"] ltac:(inlist) d).
    assert (B2 := writes_path "directories" "measurements" ["directories"; "files"; "tags"] ltac:(inlist) d1).
    assert (B3 := writes_path "files" "data_catalogue" ["directories"; "files"; "tags"] ltac:(inlist) d2).
    assert (B4 := writes_path "files" "rand_catalogue" ["directories"; "files"; "tags"] ltac:(inlist) d3).
    assert (B5 := writes_path "tags" "output" ["directories"; "files"; "tags"] ltac:(inlist) d4).
    rewrite P1 in B1. rewrite P2 in B2. rewrite P3 in B3. rewrite P4 in B4. rewrite P5 in B5.
    cbn [fst] in *. eauto using agree_trans. }
  apply volume_after in V as (A6 & _). apply nmesh_after in W as (A7 & _).
  apply cutoff_after in K as (_ & K). destruct (K N) as [-> _].
  rewrite A7, A6, A5 by notin. reflexivity.
Qed.

Lemma parse_mesh fuel e c b d d' q pb x y z i j k :
  parse fuel e c b d = (d', Ok (q, pb)) ->
  shows_box d x y z -> shows_grid d i j k -> (0 < i * j * k)%Z ->
  mesh_is q x y z i j k /\ shows_box d' x y z /\ shows_grid d' i j k.
Proof.
  intros H B G NZ. assert (AG := parse_agree _ _ _ _ _ _ _ H).
  apply parse_ok in H as (d1 & p & P & V & F).
  assert (FA := writes_fetch q pb d1). rewrite F in FA. cbn [fst] in FA.
  assert (WA := writes_pre e c b d). rewrite P in WA. cbn [fst] in WA.
  assert (PC := pre_cutoff _ _ _ _ _ _ _ P). destruct PC as (_ & PC & _).
  unfold values in PC. unfold shows_grid in G. rewrite G in PC. cbn in PC. injection PC as PC.
  assert (NM : nmesh (smp p) <> 0%Z) by lia.
  assert (PG := pre_grid _ _ _ _ _ _ _ P NM).
  apply pre_inv in P as ([] & _ & RG). destruct (RG NM) as (G1 & _). clear RG.
  unfold shows_box in *. unfold r_triple in rd_box, G1.
  rewrite WA, B in rd_box by notin. cbn in rd_box. injection rd_box as E1.
  rewrite PG, G in G1. cbn in G1. injection G1 as E2.
  assert (VO := validate_outcome _ _ _ _ _ V). destruct VO as (U & _).
  destruct U as (u1 & _).
  assert (D : direct p) by (right; rewrite <- E2; exact NZ).
  assert (VG := proj1 (validate_grid _ _ _ _ _ V) D).
  split; [split; congruence|]. split.
  - rewrite AG by notin. exact B.
  - unfold shows_grid. rewrite FA by notin. rewrite PG. exact G.
Qed.

Definition box_entry (a b c : R) : pyval := axes (VNum a) (VNum b) (VNum c).
Definition grid_entry (i j k : Z) : pyval := axes (VInt i) (VInt j) (VInt k).

(** The dictionary with the arguments written into it. *)
Definition asked (box grid : option pyval) (a b c : R) (i j k : Z) (d : dict) : dict :=
  let d := match box with Some _ => dset "boxsize" (box_entry a b c) d | None => d end in
  match grid with Some _ => dset "ngrid" (grid_entry i j k) d | None => d end.

Lemma given_plain box grid d a b c i j k :
  box_asked box d a b c -> grid_asked grid d i j k ->
  given plain (sampling_args box grid) d = (asked box grid a b c i j k d, None, Ok tt).
Proof.
  assert (PAD : forall (x : bool) T (u v : T), (if x && false && false then u else v) = v)
    by (intros []; reflexivity).
  intros B G. unfold given, sampling_args, asked.
  destruct box as [vb|], grid as [vg|]; cbn [app];
    unfold modify_sampling, check_defaults, override, has; cbn [dget andthen String.eqb Ascii.eqb Bool.eqb];
    rewrite ?PAD; cbn [andthen];
    try (destruct B as [(-> & -> & ->)| ->]); try (destruct G as [(-> & -> & ->)| ->]); reflexivity.
Qed.

Lemma asked_shows box grid d a b c i j k :
  box_asked box d a b c -> grid_asked grid d i j k ->
  shows_box (asked box grid a b c i j k d) a b c /\ shows_grid (asked box grid a b c i j k d) i j k.
Proof.
  intros B G. unfold asked, shows_box, shows_grid, box_asked, grid_asked in *.
  destruct box, grid; rewrite ?dget_dset_same, ?dget_dset_other by discriminate;
    rewrite ?dget_dset_same, ?dget_dset_other by discriminate; split; auto.
Qed.

(* ------------------------------------------------------------------ *)
(** * The mesh of the call *)

(** Without a set, the box and the grid are as asked for; the call is refused
    exactly when the limits or the number of the bins are not those of a
    measurement. *)
Theorem fresh_mesh fuel e bn vb vg lo hi n a b c i j k :
  extcall (lib e) = true ->
  p_min bn = Some lo -> p_max bn = Some hi -> p_num bn = Some n ->
  box_given vb a b c -> grid_given vg i j k -> (0 < i * j * k)%Z ->
  ((0 <= lo < hi)%R -> (2 <= n)%Z ->
     exists q, set_for fuel e bn NoSet (Some vb) (Some vg) = (None, Ok q) /\ mesh_is q a b c i j k) /\
  (~ ((0 <= lo < hi)%R /\ (2 <= n)%Z) ->
     set_for fuel e bn NoSet (Some vb) (Some vg) = (None, Err ValueError)).
Proof.
  intros X L H N B G NZ.
  assert (E : set_for fuel e bn NoSet (Some vb) (Some vg)
              = (None, cpp_of (construct fuel e (filled bn a b c i j k)))).
  { unfold set_for. rewrite (given_plain (Some vb) (Some vg) _ a b c i j k B G). reflexivity. }
  destruct (filled_runs fuel e bn lo hi n a b c i j k X L H N NZ) as [R1 R2]. split.
  - intros Q1 Q2. destruct (R1 Q1 Q2) as (q & Q & M). exists q. rewrite E, Q. now split.
  - intros Q. now rewrite E, (R2 Q).
Qed.

(** A box or a grid alone is not enough without a set. *)
Theorem fresh_needs_both fuel e bn box grid :
  box = None \/ grid = None -> set_for fuel e bn NoSet box grid = (None, Err ValueError).
Proof. intros [-> | ->]; unfold set_for; [reflexivity|]. now destruct box. Qed.

(** A binning whose bins have not been set is refused. *)
Theorem fresh_unset fuel e sp sc vb vg :
  exists x, set_for fuel e (py_new sp sc) NoSet (Some vb) (Some vg) = (None, Err x).
Proof.
  unfold set_for.
  destruct (given plain (sampling_args (Some vb) (Some vg)) (filler (py_new sp sc))) as [[d df] [[]|x]] eqn:E;
    [|exists x; reflexivity].
  unfold given in E. cbn [sampling_args app] in E. assert (S := sampling_exact _ _ _ _ _ E "range").
  unfold cpp_of. destruct (construct fuel e d) as [d' [[q pb]|x]] eqn:C; [exfalso|exists x; reflexivity].
  apply parse_ok in C as (d1 & p & P & _).
  assert (WA := writes_pre e cpp_default "false" d). rewrite P in WA. cbn [fst] in WA.
  apply pre_inv in P as ([] & _). unfold r_range in rd_range. rewrite WA, S in rd_range by notin.
  cbn in rd_range. discriminate.
Qed.

(** With a dictionary or a set, the arguments override its mesh, and are left
    in it. *)
Theorem dict_mesh fuel e bn d box grid left q a b c i j k :
  set_for fuel e bn (DictArg d) box grid = (left, Ok q) ->
  box_asked box d a b c -> grid_asked grid d i j k -> (0 < i * j * k)%Z ->
  mesh_is q a b c i j k /\
  exists d', left = Some d' /\ shows_box d' a b c /\ shows_grid d' i j k.
Proof.
  intros H B G NZ. unfold set_for in H. rewrite (given_plain box grid d a b c i j k B G) in H.
  destruct (asked_shows box grid d a b c i j k B G) as [S1 S2]. unfold cpp_of in H.
  destruct (construct _ _ _) as [d' [[q' pb]|x]] eqn:C; [|discriminate].
  cbn [fst snd bind] in H. injection H as <- <-.
  unfold construct in C. apply (parse_mesh _ _ _ _ _ _ _ _ a b c i j k) in C as (M & C1 & C2); eauto.
Qed.

Theorem set_mesh fuel e bn s box grid left q a b c i j k :
  set_for fuel e bn (SetArg s) box grid = (left, Ok q) ->
  box_asked box (entries s) a b c -> grid_asked grid (entries s) i j k -> (0 < i * j * k)%Z ->
  (box <> None \/ grid <> None -> mesh_is q a b c i j k) /\
  (box = None -> grid = None -> q = cpp s /\ left = Some (entries s)) /\
  exists d', left = Some d' /\ shows_box d' a b c /\ shows_grid d' i j k.
Proof.
  assert (PAD : forall (x : bool) T (u v : T), (if x && false && false then u else v) = v)
    by (intros []; reflexivity).
  intros H B G NZ. unfold set_for in H.
  assert (EB : forall vb, box = Some vb -> zip_axes "boxsize" (three vb) = Ok [("boxsize", box_entry a b c)]).
  { intros vb ->. destruct B as [(-> & -> & ->)| ->]; reflexivity. }
  assert (EG : forall vg, grid = Some vg -> zip_axes "ngrid" (three vg) = Ok [("ngrid", grid_entry i j k)]).
  { intros vg ->. destruct G as [(-> & -> & ->)| ->]; reflexivity. }
  destruct box as [vb|].
  - specialize (EB vb eq_refl).
    assert (R : mesh_is q a b c i j k /\
                exists d', left = Some d' /\ shows_box d' a b c /\ shows_grid d' i j k);
      [|destruct R as [R1 R2]; split; [auto|]; split; [discriminate|exact R2]].
    destruct grid as [vg|]; [specialize (EG vg eq_refl)|];
      unfold given, sampling_args in H; cbn [app] in H;
      unfold modify_sampling, check_defaults, override, has in H;
      cbn [dget andthen String.eqb Ascii.eqb Bool.eqb] in H; rewrite ?PAD in H; cbn [andthen] in H;
      rewrite EB in H; cbn [assigns assign pset_like] in H;
      destruct (setitem fuel e "boxsize" (box_entry a b c) _) as [d1 [[q1 pb1]|x1]] eqn:S1;
      cbn [snd] in H; try discriminate H; cbn [andthen] in H;
      unfold setitem, update in S1; cbn [dupdate entries cpp bar] in S1.
    + rewrite EG in H; cbn [assigns assign pset_like] in H.
      destruct (setitem fuel e "ngrid" (grid_entry i j k) _) as [d2 [[q2 pb2]|x2]] eqn:S2;
        cbn [snd] in H; try discriminate H; cbn [andthen cpp_of snd bind fst] in H; injection H as <- <-.
      unfold setitem, update in S2; cbn [dupdate entries cpp bar] in S2.
      assert (Y : dget "boxsize" d1 = Some (box_entry a b c))
        by (rewrite (parse_agree _ _ _ _ _ _ _ S1) by notin; apply dget_dset_same).
      apply (parse_mesh _ _ _ _ _ _ _ _ a b c i j k) in S2 as (M & C1 & C2);
        [ eauto | unfold shows_box; rewrite dget_dset_other by discriminate; exact Y
        | apply dget_dset_same | exact NZ ].
    + cbn [andthen cpp_of snd bind fst] in H; injection H as <- <-.
      apply (parse_mesh _ _ _ _ _ _ _ _ a b c i j k) in S1 as (M & C1 & C2);
        [ eauto | apply dget_dset_same | unfold shows_grid; rewrite dget_dset_other by discriminate; exact G
        | exact NZ ].
  - destruct grid as [vg|].
    + specialize (EG vg eq_refl). unfold given, sampling_args in H. cbn [app] in H.
      unfold modify_sampling, check_defaults, override, has in H.
      cbn [dget andthen String.eqb Ascii.eqb Bool.eqb] in H. rewrite ?PAD in H. cbn [andthen] in H.
      rewrite EG in H. cbn [assigns assign pset_like] in H.
      destruct (setitem fuel e "ngrid" (grid_entry i j k) _) as [d2 [[q2 pb2]|x2]] eqn:S2;
        cbn [snd] in H; try discriminate H; cbn [andthen cpp_of snd bind fst] in H; injection H as <- <-.
      unfold setitem, update in S2; cbn [dupdate entries cpp bar] in S2.
      apply (parse_mesh _ _ _ _ _ _ _ _ a b c i j k) in S2 as (M & C1 & C2);
        [ | unfold shows_box; rewrite dget_dset_other by discriminate; exact B
        | apply dget_dset_same | exact NZ ].
      split; [auto|]. split; [discriminate|]. eauto.
    + cbn in H. injection H as <- <-. split; [intros [K|K]; now elim K|]. split; [auto|]. eauto.
Qed.

(* ------------------------------------------------------------------ *)
(** * The vectors of the call *)

Definition entries_of (ps : setarg) : dict :=
  match ps with NoSet => [] | DictArg d => d | SetArg s => entries s end.

(** A set used as it is has the mesh its entries show. *)
Definition own_mesh (ps : setarg) (box grid : option pyval) (a b c : R) (i j k : Z) : Prop :=
  match ps with
  | SetArg s => box = None -> grid = None -> mesh_is (cpp s) a b c i j k
  | _ => True
  end.

Theorem call_mesh fuel e bn ps box grid left q a b c i j k :
  set_for fuel e bn ps box grid = (left, Ok q) ->
  box_asked box (entries_of ps) a b c -> grid_asked grid (entries_of ps) i j k -> (0 < i * j * k)%Z ->
  own_mesh ps box grid a b c i j k -> mesh_is q a b c i j k.
Proof.
  intros H B G NZ O. destruct ps as [|d|s].
  - destruct box as [vb|]; [|discriminate]. destruct grid as [vg|]; [|discriminate].
    unfold set_for in H. rewrite (given_plain (Some vb) (Some vg) (filler bn) a b c i j k B G) in H.
    destruct (asked_shows (Some vb) (Some vg) (filler bn) a b c i j k B G) as [S1 S2]. unfold cpp_of in H.
    destruct (construct _ _ _) as [d' [[q' pb]|x]] eqn:C; [|discriminate].
    cbn [fst snd bind] in H. injection H as <- <-.
    unfold construct in C. apply (parse_mesh _ _ _ _ _ _ _ _ a b c i j k) in C as (M & _); auto.
  - exact (proj1 (dict_mesh _ _ _ _ _ _ _ _ _ _ _ _ _ _ H B G NZ)).
  - destruct (set_mesh _ _ _ _ _ _ _ _ _ _ _ _ _ _ H B G NZ) as (M1 & M2 & _).
    destruct box as [vb|]; [apply M1; left; discriminate|].
    destruct grid as [vg|]; [apply M1; right; discriminate|].
    destruct (M2 eq_refl eq_refl) as [-> _]. now apply O.
Qed.

Definition asked_grid (a b c : R) (i j k : Z) : mesh_params := MeshParams (T3 i j k) (T3 a b c) 0%R.

(** The records are those of the mesh asked for, each vector of a bin once,
    bin after bin: no other entry of the set, and no entry of the template,
    has a say. *)
Theorem vectors_exact fuel e bn ps box grid left out m a b c i j k :
  record_vectors fuel e bn ps box grid left out ->
  box_asked box (entries_of ps) a b c -> grid_asked grid (entries_of ps) i j k ->
  own_mesh ps box grid a b c i j k ->
  (0 < a)%R -> (0 < b)%R -> (0 < c)%R -> (0 < i)%Z -> (0 < j)%Z -> (0 < k)%Z ->
  c_space (p_cpp bn) = Config \/ c_space (p_cpp bn) = Fourier -> BinVecProps.bins_ok m (p_cpp bn) ->
  (exists x, set_for fuel e bn ps box grid = (left, Err x) /\ out = Err x) \/
  (exists es, out = Ok es /\
     Permutation es (expected (T3 i j k) (grid_steps (c_space (p_cpp bn)) (asked_grid a b c i j k))
                       (p_cpp bn) m) /\
     StronglySorted (fun u v => (v_bin u <= v_bin v)%Z) es).
Proof.
  intros (r & S & H) B G O Ha Hb Hc Hi Hj Hk SP BO. destruct r as [q|x].
  - right. assert (NZ : (0 < i * j * k)%Z) by (apply Z.mul_pos_pos; [apply Z.mul_pos_pos|]; assumption).
    destruct (call_mesh _ _ _ _ _ _ _ _ _ _ _ _ _ _ S B G NZ O) as [M1 M2].
    unfold MainModel.mesh_of in H. rewrite M1, M2 in H.
    destruct (binned_vectors_exact (MeshParams (T3 i j k) (T3 a b c)
                (ParamModel.volume (smp q) / IZR (ParamModel.nmesh (smp q)))) (p_cpp bn) m) as [_ X]; auto.
    { unfold grid_ok. cbn. tauto. }
  - left. exists x. split; [exact S|exact H].
Qed.

(** Without a set, for linear and logarithmic bins: always recorded if there
    are two bins at least, never if there is one. *)
Theorem fresh_vectors fuel e sp sc lo hi n vb vg a b c i j k :
  extcall (lib e) = true -> sp = Config \/ sp = Fourier ->
  (sc = Lin /\ 0 <= lo \/ sc = Log /\ 0 < lo)%R -> (lo < hi)%R -> (0 < n)%nat ->
  box_given vb a b c -> grid_given vg i j k ->
  (0 < a)%R -> (0 < b)%R -> (0 < c)%R -> (0 < i)%Z -> (0 < j)%Z -> (0 < k)%Z ->
  exists bn, py_set_bins (py_new sp sc) lo hi (Z.of_nat n) = (bn, None) /\
  (exists left out, record_vectors fuel e bn NoSet (Some vb) (Some vg) left out) /\
  forall left out, record_vectors fuel e bn NoSet (Some vb) (Some vg) left out ->
  if (n =? 1)%nat then out = Err ValueError
  else exists es, out = Ok es /\
    Permutation es (expected (T3 i j k) (grid_steps sp (asked_grid a b c i j k)) (p_cpp bn) n).
Proof.
  intros X SP SC LT N B G Ha Hb Hc Hi Hj Hk.
  assert (NZ : (0 < i * j * k)%Z) by (apply Z.mul_pos_pos; [apply Z.mul_pos_pos|]; assumption).
  destruct (set_bins_lin_log sp sc lo hi n SC LT N) as (bn & E & P1 & P2 & P3 & D & _).
  exists bn. split; [exact E|].
  assert (GOK : forall v, grid_ok (MeshParams (T3 i j k) (T3 a b c) v)) by (intros v; unfold grid_ok; cbn; tauto).
  assert (BV : forall v, exists out, record_binned_vectors (MeshParams (T3 i j k) (T3 a b c) v) (p_cpp bn) out).
  { intros v. unfold record_binned_vectors.
    destruct (steps _ _) as [d|x]; [|eauto].
    destruct (run_bin (T3 i j k) d (p_cpp bn) (restricted_cells (MeshParams (T3 i j k) (T3 a b c) v) (p_cpp bn))) as [es|x] eqn:RB.
    - destruct (sorting_exists (map v_bin es)) as (idx & I).
      exists (Ok (gather es idx)), (restricted_cells (MeshParams (T3 i j k) (T3 a b c) v) (p_cpp bn)).
      split; [reflexivity|]. cbn [MeshModel.ngrid]. rewrite RB. eauto.
    - exists (Err x), (restricted_cells (MeshParams (T3 i j k) (T3 a b c) v) (p_cpp bn)). split; [reflexivity|]. cbn [MeshModel.ngrid]. now rewrite RB. }
  destruct (fresh_mesh fuel e bn vb vg lo hi (Z.of_nat n) a b c i j k X P1 P2 P3 B G NZ) as [F1 F2].
  destruct (Nat.eqb_spec n 1) as [-> |N1].
  - assert (F : set_for fuel e bn NoSet (Some vb) (Some vg) = (None, Err ValueError)) by (apply F2; lia).
    split.
    + exists None, (Err ValueError), (Err ValueError). now split.
    + intros left out (r & S & H). rewrite F in S. injection S as <- <-. exact H.
  - assert (LO : (0 <= lo < hi)%R) by (destruct SC as [[_ ?]|[_ ?]]; lra).
    destruct (F1 LO ltac:(lia)) as (q & S & M1 & M2). split.
    + destruct (BV (ParamModel.volume (smp q) / IZR (ParamModel.nmesh (smp q))))%R as (out & Q).
      exists None, out, (Ok q). split; [exact S|]. unfold MainModel.mesh_of. now rewrite M1, M2.
    + intros left out (r & S' & H). rewrite S in S'. injection S' as <- <-.
      unfold MainModel.mesh_of in H. rewrite M1, M2 in H.
      assert (Q := binned_vectors_lin_log _ sp sc lo hi n (GOK (ParamModel.volume (smp q) / IZR (ParamModel.nmesh (smp q)))%R) SP SC LT N).
      rewrite E in Q. destruct Q as [_ Q]. exact (Q out H).
Qed.

(* ------------------------------------------------------------------ *)
(** * Cases *)

Definition demo_set : dict := pdemo "powspec" (VBool false) (axes side side side) 10.

(** C121 fails: vectors in a single bin can be recorded with a set, whatever
    its own bins, but not with a box and a grid. *)
Theorem one_bin_refuted : exists bn s,
  py_set_bins (py_new Fourier Lin) 0 1 1 = (bn, None) /\
  built (construct 0 demo_env demo_set) s /\
  (forall left out, record_vectors 0 demo_env bn NoSet (Some side) (Some (VInt 64)) left out ->
     out = Err ValueError) /\
  (forall left out, record_vectors 0 demo_env bn (SetArg s) None None left out ->
     exists es, out = Ok es /\
       Permutation es (expected (T3 64 64 64)%Z
         (grid_steps Fourier (asked_grid 1000 1000 1000 64 64 64)) (p_cpp bn) 1)).
Proof.
  destruct (set_bins_lin_log Fourier Lin 0 1 1 ltac:(left; split; [reflexivity|lra]) ltac:(lra) ltac:(lia))
    as (bn & E & P1 & P2 & P3 & D & _).
  eexists bn, _. split; [exact E|]. split; [now_built|]. split.
  - intros left out H.
    destruct (fresh_vectors 0 demo_env Fourier Lin 0 1 1 side (VInt 64) 1000 1000 1000 64 64 64)
      as (bn' & E' & _ & Q); try lra; try lia; try reflexivity;
      try (left; repeat split; lra); auto.
    + rewrite E in E'. injection E' as <-. exact (Q left out H).
  - intros left out (r & S & H). cbn in S. injection S as <- <-.
    assert (Q := binned_vectors_lin_log (asked_grid 1000 1000 1000 64 64 64) Fourier Lin 0 1 1).
    rewrite E in Q. destruct Q as [_ Q]; try lra; try lia; auto.
    { unfold grid_ok. cbn. repeat split; try lia; lra. }
    { left. split; [reflexivity|lra]. }
Qed.

(** C121 fails: the box size given to one call stays in the caller's set. *)
Theorem caller_set_refuted : exists s d' q bn,
  built (construct 0 demo_env demo_set) s /\
  set_for 0 demo_env bn (SetArg s) (Some (VNum 500)) None = (Some d', Ok q) /\
  getitem (entries s) "boxsize" = Ok (axes side side side) /\
  getitem d' "boxsize" = Ok (axes (VNum 500) (VNum 500) (VNum 500)).
Proof.
  do 3 eexists. exists (py_new Fourier Lin). split; [now_built|]. split; [|split].
  - unfold set_for, given, sampling_args. cbn [app].
    unfold modify_sampling, check_defaults, override, has.
    cbn [dget andthen String.eqb Ascii.eqb Bool.eqb]. rewrite !andb_false_r. cbn [andthen three zip_axes assigns assign pset_like].
    unfold setitem, update; cbn [dupdate entries cpp bar combine]. erewrite run_parse; [|lazy -[Rmult IZR]; reflexivity
      |lazy -[Rmult IZR]; reflexivity|reflexivity|reflexivity|reflexivity|reflexivity|reflexivity].
    lazy -[Rmult IZR]; reflexivity.
  - reflexivity.
  - reflexivity.
Qed.

(** An override that works: another box for the grid of the set. *)
Example vectors_case : exists s d' q bn,
  built (construct 0 demo_env demo_set) s /\
  set_for 0 demo_env bn (SetArg s) (Some (VNum 500)) None = (Some d', Ok q) /\
  mesh_is q 500 500 500 64 64 64.
Proof.
  destruct caller_set_refuted as (s & d' & q & bn & H1 & H2 & H3 & _).
  exists s, d', q, bn. split; [exact H1|]. split; [exact H2|].
  unfold built in H1.
  refine (proj1 (set_mesh _ _ _ _ _ _ _ _ 500 500 500 64 64 64 H2 _ _ _) _).
  - left. repeat split.
  - assert (G : exists s', built (construct 0 demo_env demo_set) s' /\ shows_grid (entries s') 64 64 64).
    { eexists. split; [now_built|reflexivity]. }
    destruct G as (s' & G1 & G2). unfold built in G1. rewrite H1 in G1. injection G1 as ->. exact G2.
  - lia.
  - left. discriminate.
Qed.

Print Assumptions fresh_mesh.
Print Assumptions set_mesh.
Print Assumptions dict_mesh.
Print Assumptions vectors_exact.
Print Assumptions fresh_vectors.
Print Assumptions one_bin_refuted.
Print Assumptions caller_set_refuted.
