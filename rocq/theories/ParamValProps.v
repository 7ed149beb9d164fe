(* C29: validation of parameter sets. *)
From Coq Require Import String Ascii List ZArith Reals Bool Lra Lia.
From Flocq Require Import Core.
From Verif Require Import Base StrModel StrProps Dec ArrayModel ArrayProofs
  MeshModel ParamModel ParamProps.
Import ListNotations.
Local Open Scope string_scope.
Local Open Scope R_scope.

(* ------------------------------------------------------------------ *)
(** * The documented constraints *)

(** Statistic, point number, space. *)
Definition statistics : list (string * (string * string)) :=
  [("powspec", ("2pt", "fourier")); ("2pcf", ("2pt", "config"));
   ("2pcf-win", ("2pt", "config")); ("bispec", ("3pt", "fourier"));
   ("3pcf", ("3pt", "config")); ("3pcf-win", ("3pt", "config"));
   ("3pcf-win-wa", ("3pt", "config")); ("modes", ("none", "fourier"));
   ("pairs", ("none", "config"))].

Definition clustering := ["powspec"; "2pcf"; "bispec"; "3pcf"].
Definition windows := ["2pcf-win"; "3pcf-win"; "3pcf-win-wa"].

(** Assignment scheme and order. *)
Definition assignments : list (string * Z) :=
  [("ngp", 1%Z); ("cic", 2%Z); ("tsc", 3%Z); ("pcs", 4%Z)].

(** The point number and space after validation: those of the statistic, or
    for a statistic the library does not know (accepted only when called from
    Python) whatever they were. *)
Definition stat_kind (m : measuring) (np sp : string) : Prop :=
  In (statistic_type m, (np, sp)) statistics \/
  (~ In (statistic_type m) (map fst statistics) /\ np = npoint m /\ sp = space m).

(** The wisdom directory is switched off. *)
Definition wisdom_off (b : build) (init : bool) (w : string) : Prop :=
  gpu b = true \/ w = "false" \/
  expands (environ b) (if init then w ++ "/" else w) "".

(** Constraints on the strings. *)
Definition strings_ok (b : build) (init : bool) (p : params) : Prop :=
  let s := smp p in let m := msr p in let c := msc p in
  (extcall b = false ->
     In (catalogue_type m) ["survey"; "random"; "sim"; "none"] /\
     In (statistic_type m) (map fst statistics)) /\
  (In (statistic_type m) clustering ->
     catalogue_type m <> "random" /\ catalogue_type m <> "none") /\
  (In (statistic_type m) windows -> catalogue_type m = "random") /\
  In (alignment s) ["centre"; "pad"] /\
  In (padscale s) ["box"; "grid"] /\
  In (assignment s) (map fst assignments) /\
  In (interlace s) ["true"; "on"; "false"; "off"] /\
  In (form m) ["full"; "diag"; "off-diag"; "row"] /\
  In (norm_convention m) ["none"; "particle"; "mesh"; "mesh-mixed"] /\
  (norm_convention m = "mesh-mixed" ->
     forall np sp, stat_kind m np sp -> np = "2pt") /\
  In (binning m) ["lin"; "log"; "linpad"; "logpad"; "custom"] /\
  (gpu b = false -> In (fftw_scheme c) ["estimate"; "measure"; "patient"]) /\
  (fftw_scheme c = "estimate" -> wisdom_off b init (use_fftw_wisdom c)).

Definition cells (n : triple Z) : Z := (ax0 n * ax1 n * ax2 n)%Z.
Definition vol (box : triple R) : R := ax0 box * ax1 box * ax2 box.

(** Constraints on the numbers, for a grid [n]. *)
Definition numbers_ok (p : params) (n : triple Z) : Prop :=
  let s := smp p in let m := msr p in
  (vol (boxsize s) <= 0 -> 1 <= expand s) /\
  ((cells (ngrid s) <= 0)%Z -> 0 <= cutoff_nyq s) /\
  (alignment s = "pad" ->
     0 <= padfactor s /\
     (padscale s = "box" -> padfactor s < 1) /\
     (padscale s = "grid" -> all_axes (fun k => padfactor s < IZR k) n)) /\
  0 <= bin_min m < bin_max m /\
  (2 <= num_bins m)%Z /\
  (In (binning m) ["linpad"; "logpad"] -> (7 <= num_bins m)%Z) /\
  (- num_bins m < idx_bin m < num_bins m)%Z /\
  (form m = "row" -> (forall np sp, stat_kind m np sp -> np = "3pt") ->
     (0 <= idx_bin m)%Z).

Definition acceptable (b : build) (init : bool) (p : params) (n : triple Z) : Prop :=
  strings_ok b init p /\ numbers_ok p n.

(* ------------------------------------------------------------------ *)
(** * Tools *)

Ltac eqs :=
  repeat match goal with
  | |- context [String.eqb ?x ?y] => destruct (String.eqb_spec x y)
  | H : context [String.eqb ?x ?y] |- _ => destruct (String.eqb_spec x y)
  end.

Lemma or_eqb a b c : (a =? b)%string || c = true <-> a = b \/ c = true.
Proof. destruct (String.eqb_spec a b); simpl; split; intros H; auto; destruct H; congruence. Qed.

Lemma eqb_true a b : (a =? b)%string = true <-> a = b.
Proof. apply String.eqb_eq. Qed.

(** [r] is a success exactly when [P]. *)
Lemma stat_kind_det m np sp np' sp' :
  stat_kind m np sp -> stat_kind m np' sp' -> np = np' /\ sp = sp'.
Proof.
  intros [H|(N & -> & ->)] [H'|(N' & -> & ->)].
  - simpl in H, H'.
    repeat match goal with H : _ \/ _ |- _ => destruct H end;
      try contradiction; split; congruence.
  - exfalso. apply N'. apply (in_map fst) in H. exact H.
  - exfalso. apply N. apply (in_map fst) in H'. exact H'.
  - auto.
Qed.

Lemma stat_kind_ex m : exists np sp, stat_kind m np sp.
Proof.
  destruct (in_dec string_dec (statistic_type m) (map fst statistics)) as [H|H].
  - apply in_map_iff in H. destruct H as ((st & np & sp) & E & H). simpl in E. subst st.
    exists np, sp. now left.
  - exists (npoint m), (space m). now right.
Qed.

(* ------------------------------------------------------------------ *)
(** * The phases *)

Lemma mesh_strings_ok s :
  (exists s', val_mesh_strings s = Ok s') <->
  (In (alignment s) ["centre"; "pad"] /\ In (padscale s) ["box"; "grid"] /\
   In (assignment s) (map fst assignments) /\
   In (interlace s) ["true"; "on"; "false"; "off"]).
Proof.
  unfold val_mesh_strings. cbn [map fst assignments In]. split.
  - intros (s' & H).
    destruct (negb ((alignment s =? "centre")%string || _)) eqn:A; [discriminate|].
    apply negb_false_iff in A. apply or_eqb in A. rewrite eqb_true in A.
    destruct (negb ((padscale s =? "box")%string || _)) eqn:B; [discriminate|].
    apply negb_false_iff in B. apply or_eqb in B. rewrite eqb_true in B.
    split; [intuition|]. split; [intuition|]. clear A B.
    destruct (String.eqb_spec (assignment s) "ngp"), (String.eqb_spec (assignment s) "cic"),
      (String.eqb_spec (assignment s) "tsc"), (String.eqb_spec (assignment s) "pcs");
      try discriminate H;
      (split; [auto 6|]);
      destruct (String.eqb_spec (interlace s) "true"), (String.eqb_spec (interlace s) "on"),
        (String.eqb_spec (interlace s) "false"), (String.eqb_spec (interlace s) "off");
        try discriminate H; auto 6.
  - intros (A & B & C & D).
    replace ((alignment s =? "centre")%string || (alignment s =? "pad")%string) with true
      by (symmetry; apply or_eqb; rewrite eqb_true; intuition).
    replace ((padscale s =? "box")%string || (padscale s =? "grid")%string) with true
      by (symmetry; apply or_eqb; rewrite eqb_true; intuition).
    cbn [negb].
    destruct C as [<-|[<-|[<-|[<-|[]]]]], D as [<-|[<-|[<-|[<-|[]]]]]; eexists; reflexivity.
Qed.

Definition interlace_flag (s : string) : string :=
  if (s =? "true")%string || (s =? "on")%string then "true" else "false".

Lemma mesh_strings_val s s' :
  val_mesh_strings s = Ok s' ->
  In (assignment s, assignment_order s') assignments /\
  s' = {| boxsize := boxsize s; ngrid := ngrid s; expand := expand s;
          cutoff_nyq := cutoff_nyq s; alignment := alignment s;
          padscale := padscale s; padfactor := padfactor s;
          assignment := assignment s; interlace := interlace_flag (interlace s);
          volume := volume s; nmesh := nmesh s;
          assignment_order := assignment_order s' |}.
Proof.
  intros H. assert (K : exists s', val_mesh_strings s = Ok s') by (exists s'; exact H).
  apply mesh_strings_ok in K. destruct K as (_ & _ & C & D).
  unfold val_mesh_strings in H.
  destruct (negb _); [discriminate|]. destruct (negb _); [discriminate|].
  cbn [map fst assignments In] in C, D.
  destruct C as [C|[C|[C|[C|[]]]]], D as [D|[D|[D|[D|[]]]]];
    rewrite <- C, <- D in H |- *; injection H as <-; (split; [simpl; auto 6|reflexivity]).
Qed.

Lemma kind_stat b m np sp : val_kind b m = Ok (np, sp) -> stat_kind m np sp.
Proof.
  unfold val_kind, stat_kind. cbn [statistics map fst In]. intros H.
  destruct (String.eqb_spec (statistic_type m) "powspec");
    [destruct (_ || _); [discriminate|injection H as <- <-; left; rewrite e; auto 10]|].
  destruct (String.eqb_spec (statistic_type m) "2pcf");
    [destruct (_ || _); [discriminate|injection H as <- <-; left; rewrite e; auto 10]|].
  destruct (String.eqb_spec (statistic_type m) "2pcf-win");
    [destruct (negb _); [discriminate|injection H as <- <-; left; rewrite e; auto 10]|].
  destruct (String.eqb_spec (statistic_type m) "bispec");
    [destruct (_ || _); [discriminate|injection H as <- <-; left; rewrite e; auto 10]|].
  destruct (String.eqb_spec (statistic_type m) "3pcf");
    [destruct (_ || _); [discriminate|injection H as <- <-; left; rewrite e; auto 10]|].
  destruct (String.eqb_spec (statistic_type m) "3pcf-win");
    [destruct (negb _); [discriminate|injection H as <- <-; left; rewrite e; auto 10]|].
  destruct (String.eqb_spec (statistic_type m) "3pcf-win-wa");
    [destruct (negb _); [discriminate|injection H as <- <-; left; rewrite e; auto 10]|].
  cbn [orb] in H.
  destruct (String.eqb_spec (statistic_type m) "modes");
    [injection H as <- <-; left; rewrite e; auto 10|].
  destruct (String.eqb_spec (statistic_type m) "pairs");
    [injection H as <- <-; left; rewrite e; auto 10|].
  destruct (extcall b); [|discriminate]. injection H as <- <-. right.
  split; [|auto]. intros N.
  repeat (destruct N as [N|N]; [symmetry in N; contradiction|]). exact N.
Qed.

Lemma kind_ok b m :
  (exists x, val_kind b m = Ok x) <->
  ((extcall b = false -> In (statistic_type m) (map fst statistics)) /\
   (In (statistic_type m) clustering ->
      catalogue_type m <> "random" /\ catalogue_type m <> "none") /\
   (In (statistic_type m) windows -> catalogue_type m = "random")).
Proof.
  unfold val_kind, clustering, windows.
  destruct (in_dec string_dec (statistic_type m) (map fst statistics)) as [I|N];
    cbn [statistics map fst In] in *.
  - destruct I as [I|[I|[I|[I|[I|[I|[I|[I|[I|[]]]]]]]]]]; rewrite <- I; clear I;
      cbn [String.eqb Ascii.eqb Bool.eqb orb];
      destruct (String.eqb_spec (catalogue_type m) "random") as [E|E],
        (String.eqb_spec (catalogue_type m) "none") as [E'|E']; cbn [orb negb bind];
      (split; [intros (x & H); try discriminate;
                 (split; [auto 12|]; split; intros K;
                  try (split; assumption); try assumption; intuition discriminate)
              |intros (_ & A & B); try (eexists; reflexivity); exfalso;
                 intuition congruence]).
  - assert (U : forall x, In x ["powspec"; "2pcf"; "2pcf-win"; "bispec"; "3pcf"; "3pcf-win";
                           "3pcf-win-wa"; "modes"; "pairs"] -> (statistic_type m =? x)%string = false).
    { intros x Hx. apply String.eqb_neq. intros E. apply N. rewrite E.
      cbn [In] in Hx. intuition. }
    rewrite !U by (cbn [In]; auto 12). cbn [orb].
    destruct (extcall b); split.
    + intros _. split; [discriminate|]. split; intros K; exfalso; apply N;
        cbn [In] in K; intuition.
    + intros _. eexists; reflexivity.
    + intros (x & H); discriminate.
    + intros (H & _). exfalso. apply N, H, eq_refl.
Qed.

Lemma shape_ok m :
  (exists x, val_shape m = Ok x) <-> In (form m) ["full"; "diag"; "off-diag"; "row"].
Proof.
  unfold val_shape. split.
  - intros (x & H). cbn [In].
    destruct (String.eqb_spec (form m) "full"), (String.eqb_spec (form m) "diag"),
      (String.eqb_spec (form m) "off-diag"), (String.eqb_spec (form m) "row"); auto 6;
      discriminate.
  - intros [<-|[<-|[<-|[<-|[]]]]]; cbn [String.eqb Ascii.eqb Bool.eqb orb negb andb];
      try (eexists; reflexivity). destruct (_ =? _)%Z; eexists; reflexivity.
Qed.

Lemma conventions_ok np m :
  val_conventions np m = Ok tt <->
  (In (norm_convention m) ["none"; "particle"; "mesh"; "mesh-mixed"] /\
   (norm_convention m = "mesh-mixed" -> np = "2pt") /\
   In (binning m) ["lin"; "log"; "linpad"; "logpad"; "custom"]).
Proof.
  unfold val_conventions. split.
  - intros H. cbn [In].
    destruct (String.eqb_spec (norm_convention m) "none"),
      (String.eqb_spec (norm_convention m) "particle"),
      (String.eqb_spec (norm_convention m) "mesh"),
      (String.eqb_spec (norm_convention m) "mesh-mixed");
      cbn [orb negb andb] in H; try discriminate; (split; [auto 6|]);
      destruct (String.eqb_spec np "2pt"); cbn [orb negb andb] in H; try discriminate;
      (split; [intros; congruence|]);
      destruct (String.eqb_spec (binning m) "lin"), (String.eqb_spec (binning m) "log"),
        (String.eqb_spec (binning m) "linpad"), (String.eqb_spec (binning m) "logpad"),
        (String.eqb_spec (binning m) "custom"); try discriminate; auto 7.
  - intros (A & B & C).
    replace (negb ((binning m =? "lin")%string || _ || _ || _ || _)) with false.
    + destruct A as [A|[A|[A|[A|[]]]]]; rewrite <- A in *;
        cbn [String.eqb Ascii.eqb Bool.eqb orb negb andb]; try reflexivity.
      rewrite (B eq_refl). reflexivity.
    + destruct C as [<-|[<-|[<-|[<-|[<-|[]]]]]]; reflexivity.
Qed.

Lemma bind_ok_iff {A B} (r : res A) (f : A -> res B) y :
  bind r f = Ok y <-> exists x, r = Ok x /\ f x = Ok y.
Proof.
  destruct r; simpl; split.
  - intros H. eexists; eauto.
  - intros (x & [= ->] & H). exact H.
  - discriminate.
  - intros (x & H & _). discriminate.
Qed.

Lemma statistic_ok b m :
  (exists m', val_statistic b m = Ok m') <->
  ((extcall b = false -> In (statistic_type m) (map fst statistics)) /\
   (In (statistic_type m) clustering ->
      catalogue_type m <> "random" /\ catalogue_type m <> "none") /\
   (In (statistic_type m) windows -> catalogue_type m = "random") /\
   In (form m) ["full"; "diag"; "off-diag"; "row"] /\
   In (norm_convention m) ["none"; "particle"; "mesh"; "mesh-mixed"] /\
   (norm_convention m = "mesh-mixed" ->
      forall np sp, stat_kind m np sp -> np = "2pt") /\
   In (binning m) ["lin"; "log"; "linpad"; "logpad"; "custom"]).
Proof.
  unfold val_statistic. split.
  - intros (m' & H). apply bind_ok_iff in H. destruct H as ((np & sp) & HK & H).
    apply bind_ok_iff in H. destruct H as (sh & HS & H).
    apply bind_ok_iff in H. destruct H as ([] & HC & H).
    pose proof (kind_stat _ _ _ _ HK) as SK.
    destruct (proj1 (kind_ok b m)) as (K1 & K2 & K3); [eexists; exact HK|].
    apply conventions_ok in HC. destruct HC as (C1 & C2 & C3).
    assert (S1 := proj1 (shape_ok m) (ex_intro _ sh HS)).
    split; [exact K1|]. split; [exact K2|]. split; [exact K3|]. split; [exact S1|].
    split; [exact C1|]. split; [|exact C3].
    intros E np' sp' SK'. destruct (stat_kind_det _ _ _ _ _ SK SK') as (<- & _).
    exact (C2 E).
  - intros (K1 & K2 & K3 & S1 & C1 & C2 & C3).
    destruct (proj2 (kind_ok b m)) as ((np & sp) & HK); [auto|].
    destruct (proj2 (shape_ok m) S1) as (sh & HS).
    pose proof (kind_stat _ _ _ _ HK) as SK.
    assert (HC : val_conventions np m = Ok tt).
    { apply conventions_ok. split; [exact C1|]. split; [|exact C3].
      intros E. exact (C2 E np sp SK). }
    rewrite HK, HS. cbn [bind fst]. rewrite HC. eexists; reflexivity.
Qed.

Definition shape_of (m : measuring) : string :=
  if (form m =? "full")%string && (ell1 m =? ell2 m)%Z then "triu" else form m.

Lemma statistic_val b m m' :
  val_statistic b m = Ok m' ->
  stat_kind m (npoint m') (space m') /\
  m' = {| catalogue_type := catalogue_type m; statistic_type := statistic_type m;
          npoint := npoint m'; space := space m';
          ell1 := ell1 m; ell2 := ell2 m; ELL := ELL m;
          form := form m; norm_convention := norm_convention m;
          shape := shape_of m; binning := binning m;
          bin_min := bin_min m; bin_max := bin_max m;
          num_bins := num_bins m; idx_bin := idx_bin m |}.
Proof.
  unfold val_statistic. intros H. apply bind_ok_iff in H. destruct H as ((np & sp) & HK & H).
  apply bind_ok_iff in H. destruct H as (sh & HS & H).
  apply bind_ok_iff in H. destruct H as ([] & HC & H). injection H as <-.
  cbn [npoint space fst snd]. split; [exact (kind_stat _ _ _ _ HK)|].
  f_equal. unfold val_shape in HS. unfold shape_of. destruct (negb _); [discriminate|].
  destruct (_ && _); now injection HS.
Qed.

Lemma fftw_ok b init n m :
  (exists m', val_fftw b init n m = Ok m') <->
  ((gpu b = false -> In (fftw_scheme m) ["estimate"; "measure"; "patient"]) /\
   (gpu b = false -> fftw_scheme m = "estimate" -> wisdom_off b init (use_fftw_wisdom m))).
Proof.
  unfold val_fftw, wisdom_off. destruct (gpu b) eqn:G; cbn [negb].
  - cbn [bind]. rewrite (expand_plain _ "") by exact I. cbn [String.eqb negb].
    split; [|eexists; reflexivity]. intros _. split; intros; discriminate.
  - set (w := if (use_fftw_wisdom m =? "false")%string then "" else _).
    assert (W : expand_envar (environ b) w = "" <->
                use_fftw_wisdom m = "false" \/
                expands (environ b) (if init then use_fftw_wisdom m ++ "/" else use_fftw_wisdom m) "").
    { subst w. destruct (String.eqb_spec (use_fftw_wisdom m) "false") as [E|E].
      - rewrite expand_plain by exact I. tauto.
      - rewrite <- expand_spec. destruct init; intuition. }
    split.
    + intros (m' & H). cbn [In].
      destruct (String.eqb_spec (fftw_scheme m) "estimate") as [E|E].
      * split; [auto|]. intros _ _. right. apply W.
        cbn [bind fst snd] in H. rewrite E in H. cbn [String.eqb Ascii.eqb Bool.eqb negb andb] in H.
        destruct (String.eqb_spec (expand_envar (environ b) w) ""); [assumption|discriminate].
      * split; [|congruence]. intros _.
        destruct (String.eqb_spec (fftw_scheme m) "measure"); [auto|].
        destruct (String.eqb_spec (fftw_scheme m) "patient"); [auto|discriminate].
    + intros (A & B). specialize (A eq_refl).
      destruct A as [E|[E|[E|[]]]]; rewrite <- E in *; cbn [String.eqb Ascii.eqb Bool.eqb].
      * cbn [bind fst snd]. destruct (B eq_refl eq_refl) as [D|W']; [discriminate|].
        apply W in W'. rewrite W'. eexists; reflexivity.
      * cbn [bind fst snd]. destruct (negb _); cbn [String.eqb Ascii.eqb Bool.eqb negb andb];
          eexists; reflexivity.
      * cbn [bind fst snd]. destruct (negb _); cbn [String.eqb Ascii.eqb Bool.eqb negb andb];
          eexists; reflexivity.
Qed.

Lemma files_ok b init c p :
  (exists p', val_files b init c p = Ok p') <->
  (extcall b = false -> In c ["survey"; "random"; "sim"; "none"]).
Proof.
  unfold val_files. cbn [In]. split.
  - intros (p' & H) E. rewrite E in H.
    destruct (String.eqb_spec c "survey"), (String.eqb_spec c "random"),
      (String.eqb_spec c "sim"), (String.eqb_spec c "none"); auto 6; discriminate.
  - intros H. destruct (String.eqb_spec c "survey"), (String.eqb_spec c "random"),
      (String.eqb_spec c "sim"), (String.eqb_spec c "none"); try (eexists; reflexivity).
    destruct (extcall b); [eexists; reflexivity|]. destruct (H eq_refl) as [?|[?|[?|[?|[]]]]]; congruence.
Qed.

Lemma pad_ok s :
  In (padscale s) ["box"; "grid"] ->
  (val_pad s = Ok tt <->
   (alignment s = "pad" ->
     0 <= padfactor s /\
     (padscale s = "box" -> padfactor s < 1) /\
     (padscale s = "grid" -> all_axes (fun k => padfactor s < IZR k) (ngrid s)))).
Proof.
  intros P. unfold val_pad, all_axes.
  destruct (String.eqb_spec (alignment s) "pad") as [A|A]; [|split; [contradiction|reflexivity]].
  assert (LT : forall x y, Rltb x y = true \/ Rltb x y = false) by (intros; destruct (Rltb x y); auto).
  destruct (LT (padfactor s) 0) as [L|L]; rewrite L.
  { split; [discriminate|]. intros H. destruct (H A) as (H0 & _). apply Rltb_spec in L. lra. }
  apply Rltb_false in L.
  assert (LE : forall x y, (Rleb x y = true /\ x <= y) \/ (Rleb x y = false /\ y < x)).
  { intros x y. destruct (Rleb x y) eqn:E; [left|right]; split; auto.
    - now apply Rleb_spec.
    - apply Rleb_false in E. lra. }
  destruct P as [E|[E|[]]]; rewrite <- E; cbn [String.eqb Ascii.eqb Bool.eqb andb].
  - destruct (LE 1 (padfactor s)) as [(-> & K)|(-> & K)]; cbn [orb].
    + split; [discriminate|]. intros H. destruct (H A) as (_ & H1 & _). specialize (H1 eq_refl). lra.
    + split; [|reflexivity]. intros _ _. split; [lra|]. split; [auto|discriminate].
  - destruct (LE (IZR (ax0 (ngrid s))) (padfactor s)) as [(-> & K)|(-> & K)],
      (LE (IZR (ax1 (ngrid s))) (padfactor s)) as [(-> & K')|(-> & K')],
      (LE (IZR (ax2 (ngrid s))) (padfactor s)) as [(-> & K'')|(-> & K'')]; cbn [orb];
      (split; [try discriminate|intros H; try reflexivity; exfalso;
               destruct (H A) as (_ & _ & H1); specialize (H1 eq_refl); lra]).
    intros _ _. split; [lra|]. split; [discriminate|]. intros _. lra.
Qed.

Lemma bins_ok m :
  val_bins m = Ok tt <->
  (0 <= bin_min m < bin_max m /\ (2 <= num_bins m)%Z /\
   (In (binning m) ["linpad"; "logpad"] -> (7 <= num_bins m)%Z) /\
   (- num_bins m < idx_bin m < num_bins m)%Z /\
   (form m = "row" -> npoint m = "3pt" -> (0 <= idx_bin m)%Z)).
Proof.
  unfold val_bins. cbn [In].
  destruct (Rltb (bin_min m) 0) eqn:B0.
  { apply Rltb_spec in B0. split; [discriminate|]. intros; lra. }
  apply Rltb_false in B0.
  destruct (Rleb (bin_max m) (bin_min m)) eqn:B1.
  { apply Rleb_spec in B1. split; [discriminate|]. intros; lra. }
  apply Rleb_false in B1.
  destruct (Z.ltb_spec (num_bins m) 2); [split; [discriminate|]; intros; lia|].
  assert (ROW : ((idx_bin m <? 0)%Z && (npoint m =? "3pt")%string && (form m =? "row")%string)
                = false <-> (form m = "row" -> npoint m = "3pt" -> (0 <= idx_bin m)%Z)).
  { destruct (Z.ltb_spec (idx_bin m) 0), (String.eqb_spec (npoint m) "3pt"),
      (String.eqb_spec (form m) "row"); cbn [andb]; split; intros K; intros; try lia;
      try reflexivity; try contradiction; try discriminate.
    specialize (K e0 e). lia. }
  assert (PADS : (((binning m =? "linpad")%string || (binning m =? "logpad")%string)
                  && (num_bins m <? 7)%Z) = false <->
                 ("linpad" = binning m \/ "logpad" = binning m \/ False -> (7 <= num_bins m)%Z)).
  { destruct (String.eqb_spec (binning m) "linpad"), (String.eqb_spec (binning m) "logpad"),
      (Z.ltb_spec (num_bins m) 7); cbn [andb orb]; split; intros K; intros; try lia;
      try reflexivity; try discriminate; try (specialize (K ltac:(auto)); lia);
      intuition congruence. }
  destruct (_ && _ && _); [split; [discriminate|]; intros (_ & _ & _ & _ & K); apply ROW in K; discriminate|].
  destruct (_ && _); [split; [discriminate|]; intros (_ & _ & K & _); apply PADS in K; discriminate|].
  destruct (Z.leb_spec (num_bins m) (Z.abs (idx_bin m))); [split; [discriminate|]; intros; lia|].
  split; [|reflexivity]. intros _. split; [lra|]. split; [lia|].
  split; [now apply PADS|]. split; [lia|]. now apply ROW.
Qed.

(* ------------------------------------------------------------------ *)
(** * Putting the phases together *)

Lemma head_ok b init p :
  (exists q, val_head b init p = Ok q) <-> strings_ok b init p.
Proof.
  unfold val_head, strings_ok. cbv zeta. split.
  - intros (q & H). apply bind_ok_iff in H. destruct H as (pa & H1 & H).
    apply bind_ok_iff in H. destruct H as (s & H2 & H).
    apply bind_ok_iff in H. destruct H as (m & H3 & H).
    apply bind_ok_iff in H. destruct H as (c & H4 & H).
    assert (A1 := proj1 (files_ok _ _ _ _) (ex_intro _ pa H1)).
    assert (A2 := proj1 (mesh_strings_ok _) (ex_intro _ s H2)).
    assert (A3 := proj1 (statistic_ok _ _) (ex_intro _ m H3)).
    assert (A4 := proj1 (fftw_ok _ _ _ _) (ex_intro _ c H4)).
    destruct A2 as (? & ? & ? & ?), A3 as (? & ? & ? & ? & ? & ? & ?), A4 as (? & W).
    repeat (split; [solve [auto]|]). intros E. destruct (gpu b) eqn:G; [now left|].
    exact (W eq_refl E).
  - intros (A1 & A2 & A3 & A4 & A5 & A6 & A7 & A8 & A9 & A10 & A11 & A12 & A13).
    destruct (proj2 (files_ok b init (catalogue_type (msr p)) (val_dirs b init (pths p)))) as (pa & ->).
    { intros E. now destruct (A1 E). }
    destruct (proj2 (mesh_strings_ok (smp p))) as (s & H2); [auto|]. rewrite H2.
    destruct (proj2 (statistic_ok b (msr p))) as (m & ->).
    { repeat (split; [solve [auto]|]) || idtac.
      split; [intros E; now destruct (A1 E)|]. repeat (split; [assumption|]). assumption. }
    cbn [bind].
    destruct (proj2 (fftw_ok b init (ngrid s) (msc p))) as (c & ->); [auto|].
    eexists; reflexivity.
Qed.

Lemma head_parts b init p q :
  val_head b init p = Ok q ->
  val_files b init (catalogue_type (msr p)) (val_dirs b init (pths p)) = Ok (pths q) /\
  (exists s, val_mesh_strings (smp p) = Ok s /\ smp q = val_sizes s) /\
  val_statistic b (msr p) = Ok (msr q) /\
  (exists c, val_fftw b init (ngrid (smp q)) (msc p) = Ok c /\
     msc q = val_bvec b init (measurement_dir (pths q)) (output_tag (pths q)) c).
Proof.
  unfold val_head. intros H. apply bind_ok_iff in H. destruct H as (pa & H1 & H).
  apply bind_ok_iff in H. destruct H as (s & H2 & H).
  apply bind_ok_iff in H. destruct H as (m & H3 & H).
  apply bind_ok_iff in H. destruct H as (c & H4 & H). injection H as <-. cbn [pths smp msr msc].
  split; [exact H1|]. split; [eauto|]. split; [exact H3|]. exists c. auto.
Qed.

(** The fields validation leaves alone. *)
Definition untouched (p q : params) : Prop :=
  boxsize (smp q) = boxsize (smp p) /\ expand (smp q) = expand (smp p) /\
  cutoff_nyq (smp q) = cutoff_nyq (smp p) /\ alignment (smp q) = alignment (smp p) /\
  padscale (smp q) = padscale (smp p) /\ padfactor (smp q) = padfactor (smp p) /\
  assignment (smp q) = assignment (smp p) /\
  catalogue_type (msr q) = catalogue_type (msr p) /\
  statistic_type (msr q) = statistic_type (msr p) /\
  ell1 (msr q) = ell1 (msr p) /\ ell2 (msr q) = ell2 (msr p) /\
  ELL (msr q) = ELL (msr p) /\ form (msr q) = form (msr p) /\
  norm_convention (msr q) = norm_convention (msr p) /\
  binning (msr q) = binning (msr p) /\ bin_min (msr q) = bin_min (msr p) /\
  bin_max (msr q) = bin_max (msr p) /\ num_bins (msr q) = num_bins (msr p) /\
  idx_bin (msr q) = idx_bin (msr p) /\ output_tag (pths q) = output_tag (pths p).

(** The derived fields agree with the others. *)
Definition consistent (p q : params) : Prop :=
  In (assignment (smp q), assignment_order (smp q)) assignments /\
  volume (smp q) = vol (boxsize (smp q)) /\
  nmesh (smp q) = cells (ngrid (smp q)) /\
  stat_kind (msr p) (npoint (msr q)) (space (msr q)) /\
  (form (msr q) = "full" -> ell1 (msr q) = ell2 (msr q) -> shape (msr q) = "triu") /\
  (~ (form (msr q) = "full" /\ ell1 (msr q) = ell2 (msr q)) -> shape (msr q) = form (msr q)).

Lemma shape_of_spec m :
  (form m = "full" -> ell1 m = ell2 m -> shape_of m = "triu") /\
  (~ (form m = "full" /\ ell1 m = ell2 m) -> shape_of m = form m).
Proof.
  unfold shape_of.
  destruct (String.eqb_spec (form m) "full"), (Z.eqb_spec (ell1 m) (ell2 m)); cbn [andb];
    split; try reflexivity; intros; try contradiction; exfalso; tauto.
Qed.

Lemma files_tag b init c p p' : val_files b init c p = Ok p' -> output_tag p' = output_tag p.
Proof.
  unfold val_files. intros H. apply bind_ok_iff in H. destruct H as (x & _ & H).
  injection H as <-. reflexivity.
Qed.

Lemma head_vals b init p q :
  val_head b init p = Ok q ->
  untouched p q /\ consistent p q /\ ngrid (smp q) = ngrid (smp p) /\
  interlace (smp q) = interlace_flag (interlace (smp p)).
Proof.
  intros H. destruct (head_parts _ _ _ _ H) as (H1 & (s & H2 & ES) & H3 & _).
  apply mesh_strings_val in H2. destruct H2 as (O & Es).
  apply statistic_val in H3. destruct H3 as (K & Em).
  apply files_tag in H1. unfold untouched, consistent. rewrite ES.
  unfold val_sizes. cbn [boxsize ngrid expand cutoff_nyq alignment padscale padfactor
    assignment interlace volume nmesh assignment_order].
  assert (SH : shape (msr q) = shape_of (msr p)) by (rewrite Em; reflexivity).
  pose proof (shape_of_spec (msr p)) as (S1 & S2).
  assert (F : form (msr q) = form (msr p) /\ ell1 (msr q) = ell1 (msr p) /\ ell2 (msr q) = ell2 (msr p))
    by (rewrite Em; auto).
  destruct F as (F1 & F2 & F3). rewrite SH, F1, F2, F3.
  split; [|split; [|split]].
  - rewrite Es, Em, H1. cbn. auto 25.
  - split; [rewrite Es at 1; exact O|]. split; [reflexivity|]. split; [reflexivity|].
    split; [exact K|]. auto.
  - now rewrite Es.
  - now rewrite Es.
Qed.

Lemma tail_ok bv q :
  (exists r, val_tail bv q = Ok r) <-> val_pad (smp q) = Ok tt /\ val_bins (msr q) = Ok tt.
Proof.
  unfold val_tail. split.
  - intros (r & H). apply bind_ok_iff in H. destruct H as ([] & H1 & H).
    apply bind_ok_iff in H. destruct H as ([] & H2 & H). auto.
  - intros (-> & ->). eexists; reflexivity.
Qed.

Lemma tail_val bv q r :
  val_tail bv q = Ok r ->
  val_pad (smp q) = Ok tt /\ val_bins (msr q) = Ok tt /\
  pths r = pths q /\ msr r = msr q /\
  smp r = (if (npoint (msr q) =? "3pt")%string && (interlace (smp q) =? "true")%string
           then with_interlace "false" (smp q) else smp q) /\
  msc r = (if ((statistic_type (msr q) =? "modes")%string
               || (statistic_type (msr q) =? "pairs")%string)
              && (save_binned_vectors (msc q) =? "")%string
           then with_bvec bv (msc q) else msc q).
Proof.
  unfold val_tail. intros H. apply bind_ok_iff in H. destruct H as ([] & H1 & H).
  apply bind_ok_iff in H. destruct H as ([] & H2 & H). injection H as <-.
  cbn [pths smp msr msc]. auto 8.
Qed.

(** A parameter set the final checks leave as it is. *)
Definition tail_fix (r : params) : Prop := forall bv, val_tail bv r = Ok r.

Lemma params_eta p : {| pths := pths p; smp := smp p; msr := msr p; msc := msc p |} = p.
Proof. now destruct p. Qed.

Lemma tail_twice bv q r : bv <> "" -> val_tail bv q = Ok r -> tail_fix r.
Proof.
  intros B H bv'. apply tail_val in H. destruct H as (P & N & E1 & E2 & E3 & E4).
  unfold val_tail.
  assert (P' : val_pad (smp r) = Ok tt).
  { rewrite E3. destruct (_ && _); exact P. }
  rewrite P'. cbn [bind]. rewrite E2, N. cbn [bind].
  assert (I : (npoint (msr q) =? "3pt")%string && (interlace (smp r) =? "true")%string = false).
  { rewrite E3. destruct (npoint (msr q) =? "3pt")%string; [|reflexivity].
    destruct (interlace (smp q) =? "true")%string eqn:E; cbn [andb]; [reflexivity|exact E]. }
  assert (V : ((statistic_type (msr q) =? "modes")%string
               || (statistic_type (msr q) =? "pairs")%string)
              && (save_binned_vectors (msc r) =? "")%string = false).
  { rewrite E4. destruct (_ || _); [|reflexivity].
    destruct (save_binned_vectors (msc q) =? "")%string eqn:E; cbn [andb]; [|exact E].
    cbn [with_bvec save_binned_vectors]. now apply String.eqb_neq. }
  rewrite I, V, <- E2. now rewrite params_eta.
Qed.

Lemma default_bvec_not_empty mdir tag : default_bvec mdir tag <> "".
Proof.
  unfold default_bvec, snprintf1024. change 1023%nat with (S 1022).
  destruct mdir; [discriminate|]. cbn [append stake]. discriminate.
Qed.

(** One unfolding of validation. *)
Lemma validate_eq fuel b init p :
  validate fuel b init p =
  q <- val_head b init p ;;
  let bvec := default_bvec (measurement_dir (pths q)) (output_tag (pths q)) in
  if Rleb (volume (smp q)) 0 && Rltb (expand (smp q)) 1
  then Err InvalidParameter
  else if (nmesh (smp q) <=? 0)%Z then
    if Rltb (cutoff_nyq (smp q)) 0 then Err InvalidParameter
    else if Rltb 0 (volume (smp q)) then
      n <- cutoff_ngrid (space (msr q)) (boxsize (smp q)) (cutoff_nyq (smp q)) ;;
      match fuel with
      | O => Err OutOfFuel
      | S f =>
          r <- validate f b false
                 {| pths := pths q; smp := with_ngrid n (smp q);
                    msr := msr q; msc := msc q |} ;;
          val_tail bvec r
      end
    else val_tail bvec q
  else val_tail bvec q.
Proof. destruct fuel; reflexivity. Qed.

Definition regrid (n : triple Z) (q : params) : params :=
  {| pths := pths q; smp := with_ngrid n (smp q); msr := msr q; msc := msc q |}.

Lemma validate_tail_fix fuel b init p r :
  validate fuel b init p = Ok r -> tail_fix r.
Proof.
  rewrite validate_eq. intros H. apply bind_ok_iff in H. destruct H as (q & HH & H).
  cbv zeta in H. pose proof (default_bvec_not_empty (measurement_dir (pths q)) (output_tag (pths q))) as B.
  destruct (_ && _); [discriminate|].
  destruct (_ <=? _)%Z; [|now apply (tail_twice _ _ _ B H)].
  destruct (Rltb (cutoff_nyq _) 0); [discriminate|].
  destruct (Rltb 0 _); [|now apply (tail_twice _ _ _ B H)].
  apply bind_ok_iff in H. destruct H as (n & _ & H). destruct fuel; [discriminate|].
  apply bind_ok_iff in H. destruct H as (r' & _ & H). now apply (tail_twice _ _ _ B H).
Qed.

(** When the grid is derived, validation is the validation of the set with
    that grid. *)
Lemma validate_nested fuel b init p q n :
  val_head b init p = Ok q ->
  0 < vol (boxsize (smp p)) -> (cells (ngrid (smp p)) <= 0)%Z -> 0 <= cutoff_nyq (smp p) ->
  cutoff_ngrid (space (msr q)) (boxsize (smp p)) (cutoff_nyq (smp p)) = Ok n ->
  validate (S fuel) b init p = validate fuel b false (regrid n q).
Proof.
  intros HH V N C HN. rewrite validate_eq, HH. cbn [bind]. cbv zeta.
  destruct (head_vals _ _ _ _ HH) as (U & (_ & Ev & En & _) & Eg & _).
  destruct U as (Eb & _ & Ec & _). rewrite Ev, En, Eb, Ec, Eg.
  replace (Rleb (vol (boxsize (smp p))) 0) with false by (symmetry; now apply Rleb_false).
  cbn [andb]. destruct (Z.leb_spec (cells (ngrid (smp p))) 0); [|lia].
  replace (Rltb (cutoff_nyq (smp p)) 0) with false by (symmetry; now apply Rltb_false).
  replace (Rltb 0 (vol (boxsize (smp p)))) with true by (symmetry; now apply Rltb_spec).
  rewrite HN. cbn [bind]. fold (regrid n q).
  destruct (validate fuel b false (regrid n q)) as [r|e] eqn:E; [|reflexivity].
  cbn [bind]. apply validate_tail_fix in E. apply E.
Qed.

(** When it is not, validation is the head followed by the final checks. *)
Lemma validate_direct fuel b init p q :
  val_head b init p = Ok q ->
  vol (boxsize (smp p)) <= 0 \/ (0 < cells (ngrid (smp p)))%Z ->
  (vol (boxsize (smp p)) <= 0 -> 1 <= expand (smp p)) ->
  ((cells (ngrid (smp p)) <= 0)%Z -> 0 <= cutoff_nyq (smp p)) ->
  validate fuel b init p =
  val_tail (default_bvec (measurement_dir (pths q)) (output_tag (pths q))) q.
Proof.
  intros HH D X C. rewrite validate_eq, HH. cbn [bind]. cbv zeta.
  destruct (head_vals _ _ _ _ HH) as (U & (_ & Ev & En & _) & Eg & _).
  destruct U as (Eb & Ex & Ec & _). rewrite Ev, En, Eb, Ec, Eg, Ex.
  destruct (Rleb (vol (boxsize (smp p))) 0) eqn:LV.
  - apply Rleb_spec in LV. specialize (X LV).
    replace (Rltb (expand (smp p)) 1) with false by (symmetry; now apply Rltb_false).
    cbn [andb]. destruct (Z.leb_spec (cells (ngrid (smp p))) 0) as [L|L]; [|reflexivity].
    specialize (C L).
    replace (Rltb (cutoff_nyq (smp p)) 0) with false by (symmetry; now apply Rltb_false).
    replace (Rltb 0 (vol (boxsize (smp p)))) with false by (symmetry; now apply Rltb_false).
    reflexivity.
  - apply Rleb_false in LV. cbn [andb]. destruct D as [D|D]; [lra|].
    destruct (Z.leb_spec (cells (ngrid (smp p))) 0); [lia|]. reflexivity.
Qed.

Lemma stat_kind_head b init p q :
  val_head b init p = Ok q ->
  forall np sp, stat_kind (msr q) np sp <-> stat_kind (msr p) np sp.
Proof.
  intros HH. destruct (head_vals _ _ _ _ HH) as (U & (_ & _ & _ & K & _) & _).
  assert (Es : statistic_type (msr q) = statistic_type (msr p)) by apply U.
  intros np sp. split; intros H.
  - destruct H as [H|(N & -> & ->)]; [left; now rewrite <- Es|]. exact K.
  - destruct (stat_kind_det _ _ _ _ _ K H) as (<- & <-).
    destruct K as [K|(N & K)]; [left; now rewrite Es|]. right. rewrite Es. auto.
Qed.

(** The final checks after a successful head, for the grid of [q]. *)
Lemma final_checks b init p q :
  val_head b init p = Ok q ->
  (val_pad (smp q) = Ok tt /\ val_bins (msr q) = Ok tt <->
   ((alignment (smp p) = "pad" ->
       0 <= padfactor (smp p) /\
       (padscale (smp p) = "box" -> padfactor (smp p) < 1) /\
       (padscale (smp p) = "grid" ->
          all_axes (fun k => padfactor (smp p) < IZR k) (ngrid (smp p)))) /\
    0 <= bin_min (msr p) < bin_max (msr p) /\
    (2 <= num_bins (msr p))%Z /\
    (In (binning (msr p)) ["linpad"; "logpad"] -> (7 <= num_bins (msr p))%Z) /\
    (- num_bins (msr p) < idx_bin (msr p) < num_bins (msr p))%Z /\
    (form (msr p) = "row" -> (forall np sp, stat_kind (msr p) np sp -> np = "3pt") ->
       (0 <= idx_bin (msr p))%Z))).
Proof.
  intros HH.
  assert (SO : strings_ok b init p) by (apply head_ok; exists q; exact HH).
  assert (PS : In (padscale (smp p)) ["box"; "grid"]) by apply SO.
  destruct (head_vals _ _ _ _ HH) as (U & (_ & _ & _ & K & _) & Eg & _).
  unfold untouched in U.
  destruct U as (_ & _ & _ & Ea & Ep & Ef & _ & _ & _ & _ & _ & _ & Em & _ & Eb & E0 & E1 & En & Ei & _).
  rewrite pad_ok by now rewrite Ep. rewrite bins_ok.
  rewrite Ea, Ep, Ef, Eg, Em, Eb, E0, E1, En, Ei.
  assert (KK : npoint (msr q) = "3pt" <-> (forall np sp, stat_kind (msr p) np sp -> np = "3pt")).
  { split.
    - intros E np sp H. destruct (stat_kind_det _ _ _ _ _ K H) as (<- & _). exact E.
    - intros H. exact (H _ _ K). }
  rewrite KK. tauto.
Qed.

(** C29: when the grid numbers are given, or there is no box to derive them
    from, a parameter set is accepted exactly when the documented constraints
    hold. *)
Theorem validate_accepts fuel b init p :
  vol (boxsize (smp p)) <= 0 \/ (0 < cells (ngrid (smp p)))%Z ->
  ((exists p', validate fuel b init p = Ok p') <-> acceptable b init p (ngrid (smp p))).
Proof.
  intros D. unfold acceptable. rewrite <- head_ok. unfold numbers_ok. cbv zeta. split.
  - intros (r & H).
    assert (HH : exists q, val_head b init p = Ok q).
    { rewrite validate_eq in H. destruct (val_head b init p) as [q|]; [eauto|discriminate]. }
    split; [exact HH|]. destruct HH as (q & HH).
    assert (X : vol (boxsize (smp p)) <= 0 -> 1 <= expand (smp p)).
    { intros L. rewrite validate_eq, HH in H. cbn [bind] in H. cbv zeta in H.
      destruct (head_vals _ _ _ _ HH) as (U & (_ & Ev & _) & _).
      destruct U as (Eb & Ex & _). rewrite Ev, Eb, Ex in H.
      apply Rleb_spec in L. rewrite L in H.
      destruct (Rltb (expand (smp p)) 1) eqn:E; [discriminate|]. now apply Rltb_false in E. }
    assert (C : (cells (ngrid (smp p)) <= 0)%Z -> 0 <= cutoff_nyq (smp p)).
    { intros L. rewrite validate_eq, HH in H. cbn [bind] in H. cbv zeta in H.
      destruct (head_vals _ _ _ _ HH) as (U & (_ & _ & En & _) & Eg & _).
      destruct U as (_ & _ & Ec & _). rewrite En, Eg, Ec in H.
      destruct (_ && _); [discriminate|].
      destruct (Z.leb_spec (cells (ngrid (smp p))) 0); [|lia].
      destruct (Rltb (cutoff_nyq (smp p)) 0) eqn:E; [discriminate|]. now apply Rltb_false in E. }
    split; [exact X|]. split; [exact C|].
    rewrite (validate_direct _ _ _ _ _ HH D X C) in H.
    apply (final_checks _ _ _ _ HH). apply tail_ok with (1 := ex_intro _ r H).
  - intros ((q & HH) & X & C & N).
    rewrite (validate_direct _ _ _ _ _ HH D X C). apply tail_ok.
    apply (final_checks _ _ _ _ HH). exact N.
Qed.

(** Validating the outcome of the head again, with another grid. *)
Lemma head_again b init p q n :
  val_head b init p = Ok q -> strings_ok b false (regrid n q).
Proof.
  intros HH. assert (SO : strings_ok b init p) by (apply head_ok; exists q; exact HH).
  destruct (head_vals _ _ _ _ HH) as (U & _ & _ & EI).
  pose proof (stat_kind_head _ _ _ _ HH) as SK.
  destruct (head_parts _ _ _ _ HH) as (_ & _ & _ & (c & HF & EC)).
  unfold strings_ok in SO. cbv zeta in SO.
  destruct SO as (A1 & A2 & A3 & A4 & A5 & A6 & A7 & A8 & A9 & A10 & A11 & A12 & A13).
  unfold untouched in U.
  destruct U as (_ & _ & _ & Ea & Ep & _ & Es & Ec & Et & _ & _ & _ & Em & Eo & Eb & _).
  unfold strings_ok, regrid. cbv zeta. cbn [smp msr msc with_ngrid alignment padscale assignment interlace].
  rewrite Ec, Et, Ea, Ep, Es, Em, Eo, Eb.
  split; [exact A1|]. split; [exact A2|]. split; [exact A3|]. split; [exact A4|].
  split; [exact A5|]. split; [exact A6|]. split.
  { rewrite EI. unfold interlace_flag. destruct (_ || _); cbn; auto. }
  split; [exact A8|]. split; [exact A9|]. split.
  { intros E np sp H. apply SK in H. exact (A10 E np sp H). }
  split; [exact A11|].
  assert (FS : gpu b = false -> fftw_scheme (msc q) = fftw_scheme (msc p) /\
               (use_fftw_wisdom (msc q) <> "" -> fftw_scheme (msc p) <> "estimate")).
  { intros G. rewrite EC. cbn [val_bvec fftw_scheme use_fftw_wisdom]. unfold val_fftw in HF.
    rewrite G in HF. cbn [negb] in HF.
    destruct (A12 G) as [E|[E|[E|[]]]]; rewrite <- E in HF;
      cbn [String.eqb Ascii.eqb Bool.eqb bind fst snd negb andb] in HF;
      destruct (expand_envar (environ b) _ =? "")%string eqn:W; cbn [negb] in HF; try discriminate;
      injection HF as <-; cbn [fftw_scheme use_fftw_wisdom];
      (split; [congruence|]); intros W'; try congruence.
    apply String.eqb_eq in W. contradiction. }
  split.
  - intros G. destruct (FS G) as (-> & _). exact (A12 G).
  - intros E. unfold wisdom_off. destruct (gpu b) eqn:G; [now left|right].
    destruct (FS eq_refl) as (F1 & F2). rewrite F1 in E.
    destruct (string_dec (use_fftw_wisdom (msc q)) "") as [W|W]; [|now apply F2 in W].
    right. rewrite W. apply expand_spec. reflexivity.
Qed.

Lemma best_positive sp len cut n : best_grid sp len cut n -> (0 < n)%Z.
Proof. intros H. apply H. Qed.

Lemma vol_pos box : all_axes (fun len => 0 < len) box -> 0 < vol box.
Proof. intros (A & B & C). unfold vol. apply Rmult_lt_0_compat; [nra|exact C]. Qed.

Lemma numbers_regrid b init p q n :
  val_head b init p = Ok q -> 0 < vol (boxsize (smp p)) -> 0 <= cutoff_nyq (smp p) ->
  (numbers_ok (regrid n q) n <-> numbers_ok p n).
Proof.
  intros HH V C. destruct (head_vals _ _ _ _ HH) as (U & _).
  pose proof (stat_kind_head _ _ _ _ HH) as SK.
  unfold untouched in U. unfold numbers_ok. cbv zeta. unfold regrid. cbn [smp msr].
  cbn [with_ngrid boxsize ngrid expand cutoff_nyq alignment padscale padfactor].
  destruct U as (Ev & Ex & Ec & Ea & Ep & Ef & _ & _ & _ & _ & _ & _ & Em & _ & Eb & E0 & E1 & En & Ei & _).
  rewrite Ev, Ex, Ec, Ea, Ep, Ef, Em, Eb, E0, E1, En, Ei.
  assert (KK : (forall np sp, stat_kind (msr q) np sp -> np = "3pt") <->
               (forall np sp, stat_kind (msr p) np sp -> np = "3pt")).
  { split; intros H np sp K; apply (H np sp), SK, K. }
  rewrite KK. split.
  - intros (A & _ & B). split; [exact A|]. split; [intros _; exact C|exact B].
  - intros (A & _ & B). split; [exact A|]. split; [intros _; exact C|exact B].
Qed.

Lemma on_axes_unique {A B} (P : A -> B -> Prop) t u v :
  (forall x y z, P x y -> P x z -> y = z) -> on_axes P t u -> on_axes P t v -> u = v.
Proof.
  intros H (A0 & A1 & A2) (B0 & B1 & B2). destruct u, v; cbn in *. f_equal; eauto.
Qed.

Lemma cutoff_space sp box cut n :
  cutoff_ngrid sp box cut = Ok n -> In sp ["fourier"; "config"].
Proof.
  unfold cutoff_ngrid, each_axis, cutoff_axis. cbn [In]. intros H.
  destruct (String.eqb_spec sp "fourier"); [auto|].
  destruct (String.eqb_spec sp "config"); [auto|discriminate].
Qed.

(** A cutoff of zero never ends: each nested validation derives zero cells
    again. *)
Lemma zero_cutoff_not_ok fuel : forall b init p r,
  0 < vol (boxsize (smp p)) -> (cells (ngrid (smp p)) <= 0)%Z -> cutoff_nyq (smp p) = 0 ->
  validate fuel b init p <> Ok r.
Proof.
  induction fuel as [|f IH]; intros b init p r V N C H.
  - rewrite validate_eq in H. apply bind_ok_iff in H. destruct H as (q & HH & H). cbv zeta in H.
    destruct (head_vals _ _ _ _ HH) as (U & (_ & Ev & En & _) & Eg & _).
    destruct U as (Eb & _ & Ec & _). rewrite Ev, En, Eb, Ec, Eg in H.
    replace (Rleb (vol (boxsize (smp p))) 0) with false in H by (symmetry; now apply Rleb_false).
    cbn [andb] in H. destruct (Z.leb_spec (cells (ngrid (smp p))) 0); [|lia].
    destruct (Rltb (cutoff_nyq (smp p)) 0); [discriminate|].
    replace (Rltb 0 (vol (boxsize (smp p)))) with true in H by (symmetry; now apply Rltb_spec).
    apply bind_ok_iff in H. destruct H as (n & _ & H). discriminate.
  - assert (HH : exists q, val_head b init p = Ok q).
    { rewrite validate_eq in H. destruct (val_head b init p) as [q|]; [eauto|discriminate]. }
    destruct HH as (q & HH).
    destruct (cutoff_ngrid (space (msr q)) (boxsize (smp p)) (cutoff_nyq (smp p))) as [n|e] eqn:HN.
    + rewrite (validate_nested _ _ _ _ _ _ HH V N ltac:(lra) HN) in H.
      destruct (head_vals _ _ _ _ HH) as (U & _). destruct U as (Eb & _ & Ec & _).
      apply IH in H; [exact H| | |]; unfold regrid; cbn [smp with_ngrid boxsize ngrid cutoff_nyq].
      * now rewrite Eb.
      * pose proof (cutoff_space _ _ _ _ HN) as S. rewrite C in HN.
        unfold cutoff_ngrid, each_axis in HN. destruct S as [S|[S|[]]]; rewrite <- S in HN.
        -- rewrite !(proj1 (cutoff_zero _)) in HN. injection HN as <-. unfold cells. cbn. lia.
        -- rewrite !(proj2 (cutoff_zero _)) in HN. discriminate.
      * now rewrite Ec.
    + rewrite validate_eq, HH in H. cbn [bind] in H. cbv zeta in H.
      destruct (head_vals _ _ _ _ HH) as (U & (_ & Ev & En & _) & Eg & _).
      destruct U as (Eb & _ & Ec & _). rewrite Ev, En, Eb, Ec, Eg in H.
      replace (Rleb (vol (boxsize (smp p))) 0) with false in H by (symmetry; now apply Rleb_false).
      cbn [andb] in H. destruct (Z.leb_spec (cells (ngrid (smp p))) 0); [|lia].
      destruct (Rltb (cutoff_nyq (smp p)) 0); [discriminate|].
      replace (Rltb 0 (vol (boxsize (smp p)))) with true in H by (symmetry; now apply Rltb_spec).
      rewrite HN in H. discriminate.
Qed.

(** C29: when the grid numbers are to be derived for a box with positive
    sides, acceptance means a positive cutoff and the documented constraints
    with the best grid, which is the one set. *)
Theorem validate_accepts_cutoff fuel b init p :
  all_axes (fun len => 0 < len) (boxsize (smp p)) ->
  (cells (ngrid (smp p)) <= 0)%Z ->
  ((exists p', validate (S fuel) b init p = Ok p') <->
   0 < cutoff_nyq (smp p) /\
   exists n, acceptable b init p n /\
     forall np sp, stat_kind (msr p) np sp ->
       on_axes (fun len k => best_grid sp len (cutoff_nyq (smp p)) k) (boxsize (smp p)) n).
Proof.
  intros PB N. pose proof (vol_pos _ PB) as V. split.
  - intros (r & H).
    assert (HH : exists q, val_head b init p = Ok q).
    { rewrite validate_eq in H. destruct (val_head b init p) as [q|]; [eauto|discriminate]. }
    destruct HH as (q & HH).
    assert (C0 : 0 <= cutoff_nyq (smp p)).
    { rewrite validate_eq, HH in H. cbn [bind] in H. cbv zeta in H.
      destruct (head_vals _ _ _ _ HH) as (U & (_ & _ & En & _) & Eg & _).
      destruct U as (_ & _ & Ec & _). rewrite En, Eg, Ec in H.
      destruct (_ && _); [discriminate|].
      destruct (Z.leb_spec (cells (ngrid (smp p))) 0); [|lia].
      destruct (Rltb (cutoff_nyq (smp p)) 0) eqn:E; [discriminate|]. now apply Rltb_false in E. }
    assert (C : 0 < cutoff_nyq (smp p)).
    { destruct C0 as [C0|C0]; [exact C0|]. exfalso.
      exact (zero_cutoff_not_ok _ _ _ _ _ V N (eq_sym C0) H). }
    split; [exact C|].
    destruct (cutoff_ngrid (space (msr q)) (boxsize (smp p)) (cutoff_nyq (smp p))) as [n|e] eqn:HN.
    + pose proof (cutoff_space _ _ _ _ HN) as S.
      destruct (cutoff_ngrid_best _ _ _ PB C S) as (n' & HN' & _ & B).
      rewrite HN in HN'. injection HN' as <-.
      rewrite (validate_nested _ _ _ _ _ _ HH V N C0 HN) in H.
      exists n. split.
      * split; [apply head_ok; exists q; exact HH|].
        apply (numbers_regrid _ _ _ _ _ HH V C0).
        apply (validate_accepts fuel b false (regrid n q)); [|exists r; exact H].
        right. unfold regrid, cells. cbn [smp with_ngrid ngrid].
        destruct B as (B0 & B1 & B2). apply best_positive in B0, B1, B2.
        apply Z.mul_pos_pos; [|exact B2]. now apply Z.mul_pos_pos.
      * intros np sp K. destruct (head_vals _ _ _ _ HH) as (_ & (_ & _ & _ & K' & _) & _).
        destruct (stat_kind_det _ _ _ _ _ K K') as (-> & ->). exact B.
    + exfalso. rewrite validate_eq, HH in H. cbn [bind] in H. cbv zeta in H.
      destruct (head_vals _ _ _ _ HH) as (U & (_ & Ev & En & _) & Eg & _).
      destruct U as (Eb & _ & Ec & _). rewrite Ev, En, Eb, Ec, Eg in H.
      replace (Rleb (vol (boxsize (smp p))) 0) with false in H by (symmetry; now apply Rleb_false).
      cbn [andb] in H. destruct (Z.leb_spec (cells (ngrid (smp p))) 0); [|lia].
      destruct (Rltb (cutoff_nyq (smp p)) 0); [discriminate|].
      replace (Rltb 0 (vol (boxsize (smp p)))) with true in H by (symmetry; now apply Rltb_spec).
      rewrite HN in H. discriminate.
  - intros (C & n & (SO & NO) & B). apply head_ok in SO. destruct SO as (q & HH).
    destruct (head_vals _ _ _ _ HH) as (_ & (_ & _ & _ & K & _) & _).
    specialize (B _ _ K).
    assert (S : In (space (msr q)) ["fourier"; "config"]).
    { destruct B as ((_ & _ & [(E & _)|(E & _)] & _) & _); rewrite E; cbn; auto. }
    destruct (cutoff_ngrid_best _ _ _ PB C S) as (n' & HN & _ & B').
    assert (n' = n) as ->.
    { refine (on_axes_unique _ _ _ _ _ B' B). intros x y z. apply best_grid_unique. }
    rewrite (validate_nested _ _ _ _ _ _ HH V N ltac:(lra) HN).
    apply validate_accepts.
    + right. unfold regrid, cells. cbn [smp with_ngrid ngrid].
      destruct B as (B0 & B1 & B2). apply best_positive in B0, B1, B2.
      apply Z.mul_pos_pos; [|exact B2]. now apply Z.mul_pos_pos.
    + split; [exact (head_again _ _ _ _ _ HH)|].
      apply (numbers_regrid _ _ _ _ _ HH V ltac:(lra)). exact NO.
Qed.

(* ------------------------------------------------------------------ *)
(** * C29: the outcome *)

(** Interlacing is "true" or "false" as asked for, and off for three-point
    statistics. *)
Definition interlacing_settled (p p' : params) : Prop :=
  interlace (smp p') =
    if (npoint (msr p') =? "3pt")%string then "false"
    else if (interlace (smp p) =? "true")%string || (interlace (smp p) =? "on")%string
         then "true" else "false".

Lemma untouched_trans p q r : untouched p q -> untouched q r -> untouched p r.
Proof. unfold untouched. intuition congruence. Qed.

Lemma consistent_trans b init p q n r :
  val_head b init p = Ok q -> consistent (regrid n q) r -> consistent p r.
Proof.
  intros HH (A & B & C & D & E). unfold consistent. split; [exact A|]. split; [exact B|].
  split; [exact C|]. split; [|exact E]. now apply (stat_kind_head _ _ _ _ HH).
Qed.

Lemma tail_outcome bv p q r b init :
  val_head b init p = Ok q -> val_tail bv q = Ok r ->
  untouched p r /\ consistent p r /\ interlacing_settled p r /\ ngrid (smp r) = ngrid (smp p).
Proof.
  intros HH HT. destruct (head_vals _ _ _ _ HH) as (U & Cn & Eg & EI).
  apply tail_val in HT. destruct HT as (_ & _ & E1 & E2 & E3 & _).
  assert (E3' : smp r = smp q \/ smp r = with_interlace "false" (smp q))
    by (rewrite E3; destruct (_ && _); auto).
  split; [|split; [|split]].
  - unfold untouched in *. rewrite E1, E2. destruct E3' as [-> | ->]; exact U.
  - unfold consistent in *. rewrite E2. destruct E3' as [-> | ->]; exact Cn.
  - unfold interlacing_settled. rewrite E3, E2. fold (interlace_flag (interlace (smp p))).
    rewrite EI. destruct (npoint (msr q) =? "3pt")%string; cbn [andb]; [|exact EI].
    unfold interlace_flag in *. destruct (_ || _); cbn [String.eqb Ascii.eqb Bool.eqb].
    + reflexivity.
    + exact EI.
  - destruct E3' as [-> | ->]; exact Eg.
Qed.

Lemma flag_flag s : interlace_flag (interlace_flag s) = interlace_flag s.
Proof. unfold interlace_flag. destruct ((s =? "true")%string || (s =? "on")%string); reflexivity. Qed.

(** Every successful validation is a head and the final checks, possibly
    after a grid has been derived. *)
Lemma validate_cases fuel b init p r :
  validate fuel b init p = Ok r ->
  exists q, val_head b init p = Ok q /\
    (((vol (boxsize (smp p)) <= 0 \/ (0 < cells (ngrid (smp p)))%Z) /\
      (vol (boxsize (smp p)) <= 0 -> 1 <= expand (smp p)) /\
      ((cells (ngrid (smp p)) <= 0)%Z -> 0 <= cutoff_nyq (smp p)) /\
      val_tail (default_bvec (measurement_dir (pths q)) (output_tag (pths q))) q = Ok r) \/
     (0 < vol (boxsize (smp p)) /\ (cells (ngrid (smp p)) <= 0)%Z /\
      exists f n, fuel = S f /\
        cutoff_ngrid (space (msr q)) (boxsize (smp p)) (cutoff_nyq (smp p)) = Ok n /\
        validate f b false (regrid n q) = Ok r)).
Proof.
  intros H. pose proof H as H0. rewrite validate_eq in H.
  apply bind_ok_iff in H. destruct H as (q & HH & H). cbv zeta in H. exists q. split; [exact HH|].
  destruct (head_vals _ _ _ _ HH) as (U & (_ & Ev & En & _) & Eg & _).
  destruct U as (Eb & Ex & Ec & _). rewrite Ev, En, Eb, Ec, Eg, Ex in H.
  destruct (Rleb (vol (boxsize (smp p))) 0) eqn:LV.
  - apply Rleb_spec in LV. left. split; [auto|].
    destruct (Rltb (expand (smp p)) 1) eqn:LX; [discriminate|]. apply Rltb_false in LX.
    split; [intros _; lra|]. cbn [andb] in H.
    replace (Rltb 0 (vol (boxsize (smp p)))) with false in H by (symmetry; now apply Rltb_false).
    destruct (Z.leb_spec (cells (ngrid (smp p))) 0).
    + destruct (Rltb (cutoff_nyq (smp p)) 0) eqn:LC; [discriminate|]. apply Rltb_false in LC.
      split; [intros _; lra|exact H].
    + split; [lia|exact H].
  - apply Rleb_false in LV. cbn [andb] in H.
    replace (Rltb 0 (vol (boxsize (smp p)))) with true in H by (symmetry; now apply Rltb_spec).
    destruct (Z.leb_spec (cells (ngrid (smp p))) 0).
    + right. destruct (Rltb (cutoff_nyq (smp p)) 0) eqn:LC; [discriminate|]. apply Rltb_false in LC.
      split; [exact LV|]. split; [assumption|].
      apply bind_ok_iff in H. destruct H as (n & HN & H).
      destruct fuel as [|f]; [discriminate|]. exists f, n. split; [reflexivity|]. split; [exact HN|].
      rewrite <- (validate_nested f _ _ _ _ _ HH LV ltac:(assumption) LC HN). exact H0.
    + left. split; [auto|]. split; [intros; lra|]. split; [lia|exact H].
Qed.

(** C29: what a successful validation leaves behind. *)
Theorem validate_outcome fuel b init p p' :
  validate fuel b init p = Ok p' ->
  untouched p p' /\ consistent p p' /\ interlacing_settled p p'.
Proof.
  revert b init p. induction fuel as [fuel IH] using (well_founded_induction Wf_nat.lt_wf).
  intros b init p H. apply validate_cases in H.
  destruct H as (q & HH & [(_ & _ & _ & HT)|(_ & _ & f & n & -> & _ & H)]).
  - destruct (tail_outcome _ _ _ _ _ _ HH HT) as (A & B & C & _). auto.
  - destruct (IH f ltac:(lia) _ _ _ H) as (A & B & C).
    destruct (head_vals _ _ _ _ HH) as (U & _ & _ & EI).
    split; [|split].
    + apply untouched_trans with (2 := A). exact U.
    + exact (consistent_trans _ _ _ _ _ _ HH B).
    + unfold interlacing_settled in *. rewrite C. unfold regrid. cbn [smp with_ngrid interlace].
      rewrite EI. fold (interlace_flag (interlace_flag (interlace (smp p)))). rewrite flag_flag.
      reflexivity.
Qed.

(** C29: given grid numbers are kept; derived ones are the best. *)
Theorem validate_grid fuel b init p p' :
  validate fuel b init p = Ok p' ->
  (vol (boxsize (smp p)) <= 0 \/ (0 < cells (ngrid (smp p)))%Z -> ngrid (smp p') = ngrid (smp p)) /\
  (all_axes (fun len => 0 < len) (boxsize (smp p)) -> (cells (ngrid (smp p)) <= 0)%Z ->
   on_axes (fun len k => best_grid (space (msr p')) len (cutoff_nyq (smp p)) k)
     (boxsize (smp p)) (ngrid (smp p'))).
Proof.
  intros H. pose proof H as H0. apply validate_cases in H.
  destruct H as (q & HH & [(D & _ & _ & HT)|(V & N & f & n & -> & HN & H)]).
  - destruct (tail_outcome _ _ _ _ _ _ HH HT) as (_ & _ & _ & G). split; [auto|].
    intros PB N. apply vol_pos in PB. destruct D; [lra|lia].
  - split; [intros [D|D]; [lra|lia]|]. intros PB _.
    assert (C : 0 < cutoff_nyq (smp p)).
    { apply (validate_accepts_cutoff f b init p PB N). exists p'. exact H0. }
    pose proof (cutoff_space _ _ _ _ HN) as S.
    destruct (cutoff_ngrid_best _ _ _ PB C S) as (n' & HN' & _ & B).
    rewrite HN in HN'. injection HN' as <-.
    assert (P : (0 < cells n)%Z).
    { destruct B as (B0 & B1 & B2). apply best_positive in B0, B1, B2. unfold cells.
      apply Z.mul_pos_pos; [|exact B2]. now apply Z.mul_pos_pos. }
    pose proof (validate_outcome _ _ _ _ _ H0) as (_ & (_ & _ & _ & K & _) & _).
    destruct (head_vals _ _ _ _ HH) as (_ & (_ & _ & _ & K' & _) & _).
    destruct (stat_kind_det _ _ _ _ _ K K') as (_ & ->).
    apply validate_cases in H. destruct H as (q' & HH' & [(_ & _ & _ & HT)|(_ & N' & _)]).
    + destruct (tail_outcome _ _ _ _ _ _ HH' HT) as (_ & _ & _ & G). rewrite G. exact B.
    + unfold regrid in N'. cbn [smp with_ngrid ngrid] in N'. lia.
Qed.
