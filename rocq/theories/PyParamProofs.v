(* Lemmas on Python parameter sets: dictionaries, which entries parsing
   writes, and what a successful parse establishes. *)
From Coq Require Import String Ascii List ZArith Reals Bool Lia Lra.
From Verif Require Import Base StrModel Dec ArrayModel ArrayProofs MeshModel
  ParamModel ParamProps ParamValProps PyParamModel.
Import ListNotations.
Local Open Scope string_scope.

(* ------------------------------------------------------------------ *)
(** * Dictionaries *)

Lemma dget_dset_same {A} k (v : A) d : dget k (dset k v d) = Some v.
Proof.
  induction d as [|[j w] d IH]; cbn; [now rewrite String.eqb_refl|].
  destruct (j =? k) eqn:E; cbn; rewrite E; [reflexivity|exact IH].
Qed.

Lemma dget_dset_other {A} j k (v : A) d : j <> k -> dget j (dset k v d) = dget j d.
Proof.
  intros N. induction d as [|[i w] d IH]; cbn.
  - destruct (k =? j) eqn:E; [|reflexivity]. apply String.eqb_eq in E. congruence.
  - destruct (i =? k) eqn:E; cbn; destruct (i =? j) eqn:F; try reflexivity; try exact IH.
    apply String.eqb_eq in E, F. congruence.
Qed.

Lemma dset_present {A} k (v : A) d : dget k d = Some v -> dset k v d = d.
Proof.
  induction d as [|[i w] d IH]; cbn; [discriminate|].
  destruct (i =? k) eqn:E; [now intros [= ->]|]. intros H. now rewrite IH.
Qed.

Lemma dset_twice {A} k (v w : A) d : dset k v (dset k w d) = dset k v d.
Proof.
  induction d as [|[i x] d IH]; cbn; [now rewrite String.eqb_refl|].
  destruct (i =? k) eqn:E; cbn; rewrite E; [reflexivity|now rewrite IH].
Qed.

Lemma dget_dpop_other {A} j k (d : list (string * A)) :
  j <> k -> dget j (dpop k d) = dget j d.
Proof.
  intros N. induction d as [|[i w] d IH]; cbn; [reflexivity|].
  destruct (i =? k) eqn:E; cbn; destruct (i =? j) eqn:F; try reflexivity; try exact IH.
  apply String.eqb_eq in E, F. congruence.
Qed.

Lemma dget_in {A} k (d : list (string * A)) v : dget k d = Some v -> In (k, v) d.
Proof.
  induction d as [|[i w] d IH]; cbn; [discriminate|].
  destruct (i =? k) eqn:E; [|now right; apply IH].
  apply String.eqb_eq in E. intros [= ->]. left. congruence.
Qed.

Lemma dget_none {A} k (d : list (string * A)) : dget k d = None <-> ~ In k (map fst d).
Proof.
  induction d as [|[i w] d IH]; cbn; [tauto|]. destruct (i =? k) eqn:E.
  - apply String.eqb_eq in E. split; [discriminate|]. intros N. exfalso. tauto.
  - apply String.eqb_neq in E. rewrite IH. tauto.
Qed.

Lemma in_dpop {A} k x (d : list (string * A)) : In x (dpop k d) -> In x d.
Proof.
  induction d as [|[i w] d IH]; cbn; [tauto|].
  destruct (i =? k); cbn; [tauto|]. intros [H|H]; [now left|right; now apply IH].
Qed.

Lemma dpop_nodup {A} k (d : list (string * A)) :
  NoDup (map fst d) -> NoDup (map fst (dpop k d)).
Proof.
  induction d as [|[i w] d IH]; cbn; [auto|]. intros H. inversion H as [|? ? N D]; subst.
  destruct (i =? k); [exact D|]. cbn. constructor; [|now apply IH].
  intros I. apply N. apply in_map_iff in I as ([a b] & E & I). apply in_dpop in I.
  apply in_map_iff. now exists (a, b).
Qed.

Lemma dget_dpop_same {A} k (d : list (string * A)) :
  NoDup (map fst d) -> dget k (dpop k d) = None.
Proof.
  induction d as [|[i w] d IH]; cbn; [reflexivity|]. intros H.
  inversion H as [|? ? N D]; subst. destruct (i =? k) eqn:E.
  - apply String.eqb_eq in E. subst. now apply dget_none.
  - cbn. rewrite E. now apply IH.
Qed.

(* ------------------------------------------------------------------ *)
(** * Which entries an operation writes *)

(** [d'] reads like [d] outside [w]. *)
Definition agree (w : list string) (d d' : dict) : Prop :=
  forall k, ~ In k w -> dget k d' = dget k d.

Lemma agree_refl w d : agree w d d.
Proof. now intros k _. Qed.

Lemma agree_trans w a b c : agree w a b -> agree w b c -> agree w a c.
Proof. intros H G k N. now rewrite (G k N), (H k N). Qed.

Lemma agree_dset w k v d : In k w -> agree w d (dset k v d).
Proof. intros I j N. apply dget_dset_other. congruence. Qed.

Lemma agree_incl w w' d d' : incl w w' -> agree w d d' -> agree w' d d'.
Proof. intros I H k N. apply H. intros J. now apply N, I. Qed.

Definition writes {A} (w : list string) (m : M A) : Prop :=
  forall d, agree w d (fst (m d)).

Lemma writes_ret {A} w (a : A) : writes w (retM a).
Proof. intros d. apply agree_refl. Qed.

Lemma writes_read {A} w (f : dict -> res A) : writes w (readM f).
Proof. intros d. apply agree_refl. Qed.

Lemma writes_put w k v : In k w -> writes w (put k v).
Proof. intros I d. now apply agree_dset. Qed.

Lemma writes_bind {A B} w (m : M A) (f : A -> M B) :
  writes w m -> (forall a, writes w (f a)) -> writes w (bindM m f).
Proof.
  intros H G d. unfold bindM. specialize (H d). destruct (m d) as [d1 [a|x]]; cbn in *.
  - exact (agree_trans _ _ _ _ H (G a d1)).
  - exact H.
Qed.

Lemma writes_incl {A} w w' (m : M A) : incl w w' -> writes w m -> writes w' m.
Proof. intros I H d. now apply (agree_incl w). Qed.

(** Entries used as working space, written before validation. *)
Definition scratch := ["directories"; "files"; "tags"; "volume"; "nmesh"; "ngrid"].

(** Entries fetched from C++ after validation. *)
Definition fetched :=
  ["assignment_order"; "npoint"; "space"; "fftw_planner_flag"; "fftw_wisdom_file_f";
   "fftw_wisdom_file_b"; "use_fftw_wisdom"; "interlace"; "progbar"].

Lemma writes_path o i w : In o w -> writes w (m_path o i).
Proof.
  intros I d. unfold m_path. destruct (dget o d) as [[]|]; cbn; try apply agree_refl.
  destruct (dget i d0) as [[]|]; cbn; try apply agree_refl. now apply agree_dset.
Qed.

Ltac inlist := cbn; tauto.

Lemma writes_volume : writes scratch m_volume.
Proof.
  apply writes_bind; [|intros; apply writes_read]. intros d. apply agree_dset. inlist.
Qed.

Lemma writes_nmesh : writes scratch m_nmesh.
Proof.
  apply writes_bind; [|intros; apply writes_read]. intros d. apply agree_dset. inlist.
Qed.

Lemma writes_axis a : writes scratch (m_axis a).
Proof.
  apply writes_bind; [apply writes_read|]. intros n d. cbn.
  destruct (dget "ngrid" d) as [[]|]; try apply agree_refl. apply agree_dset. inlist.
Qed.

Lemma writes_set_ngrid : writes scratch m_set_ngrid.
Proof.
  apply writes_bind; [apply writes_axis|intros].
  apply writes_bind; [apply writes_axis|intros]. apply writes_axis.
Qed.

Lemma writes_cutoff v m o : writes scratch (m_cutoff v m o).
Proof.
  unfold m_cutoff. destruct (m =? 0)%Z; [|apply writes_ret]. intros d.
  destruct (dget "cutoff_nyq" d) as [[]|]; try apply agree_refl;
    cbn [to_float]; destruct (Rltb 0 v); try apply agree_refl;
    (eapply (writes_bind scratch m_set_ngrid);
     [apply writes_set_ngrid|intros; apply writes_ret]).
Qed.

Lemma writes_pre e c b : writes scratch (parse_pre e c b).
Proof.
  unfold parse_pre.
  repeat first
    [ apply writes_ret
    | apply writes_bind;
      [ first [ apply writes_read | apply writes_volume | apply writes_nmesh
              | apply writes_cutoff | apply writes_path; inlist ]
      | intros ] ].
Qed.

Lemma writes_fetch q pb : writes fetched (m_fetch q pb).
Proof.
  unfold m_fetch. cbv zeta.
  repeat first
    [ apply writes_put; inlist | apply writes_read
    | apply writes_bind; [|intros] ].
  - destruct (lower (interlace (smp q)) =? "true"); [apply writes_put; inlist|].
    destruct (lower (interlace (smp q)) =? "false"); [apply writes_put; inlist|].
    apply writes_read.
  - destruct (int_of_str pb); [apply writes_put; inlist|].
    destruct (pb =? "true"); [apply writes_put; inlist|].
    destruct (pb =? "false"); [apply writes_put; inlist|]. apply writes_read.
Qed.

Lemma writes_parse fuel e c b : writes (scratch ++ fetched) (parse fuel e c b).
Proof.
  unfold parse. apply writes_bind; [|intros x; apply writes_bind; [|intros q]].
  - eapply writes_incl; [|apply writes_pre]. apply incl_appl, incl_refl.
  - apply writes_read.
  - apply writes_bind; [|intros; apply writes_ret].
    eapply writes_incl; [|apply writes_fetch]. apply incl_appr, incl_refl.
Qed.

(* ------------------------------------------------------------------ *)
(** * Inverting successful and failed runs *)

Lemma bindM_ok {A B} (m : M A) (f : A -> M B) d d' b :
  bindM m f d = (d', Ok b) <-> exists d1 a, m d = (d1, Ok a) /\ f a d1 = (d', Ok b).
Proof.
  unfold bindM. destruct (m d) as [d1 [a|x]]; split.
  - intros H. now exists d1, a.
  - intros (d2 & a2 & [= -> ->] & H). exact H.
  - discriminate.
  - now intros (d2 & a2 & H & _).
Qed.

Lemma bindM_err {A B} (m : M A) (f : A -> M B) d d' x :
  bindM m f d = (d', Err x) <->
  m d = (d', Err x) \/ exists d1 a, m d = (d1, Ok a) /\ f a d1 = (d', Err x).
Proof.
  unfold bindM. destruct (m d) as [d1 [a|y]]; split.
  - intros H. right. now exists d1, a.
  - intros [H|(d2 & a2 & [= -> ->] & H)]; [discriminate|exact H].
  - intros [= -> ->]. now left.
  - intros [[= -> ->]|(d2 & a2 & H & _)]; [reflexivity|discriminate].
Qed.

Lemma readM_ok {A} (f : dict -> res A) d d' a :
  readM f d = (d', Ok a) <-> d' = d /\ f d = Ok a.
Proof. unfold readM. split; [now intros [= -> ->]|now intros [-> ->]]. Qed.

(** Fetching fails only with RuntimeError. *)
Lemma fetch_err q pb d d' x : m_fetch q pb d = (d', Err x) -> x = RuntimeError.
Proof.
  unfold m_fetch. cbv zeta. intros H.
  repeat (apply bindM_err in H as [H|(? & ? & _ & H)];
          [try discriminate H|]).
  - destruct (lower (interlace (smp q)) =? "true"); [discriminate|].
    destruct (lower (interlace (smp q)) =? "false"); [discriminate|].
    now injection H.
  - destruct (int_of_str pb); [discriminate|].
    destruct (pb =? "true"); [discriminate|].
    destruct (pb =? "false"); [discriminate|]. now injection H.
Qed.

(** A parse that fails before fetching has only used its working space. *)
Lemma parse_err fuel e c b d d' x :
  parse fuel e c b d = (d', Err x) -> x <> RuntimeError -> agree scratch d d'.
Proof.
  intros H N. unfold parse in H. apply bindM_err in H as [H|(d1 & y & H & G)].
  - generalize (writes_pre e c b d). now rewrite H.
  - assert (F := writes_pre e c b d). rewrite H in F. cbn in F.
    apply bindM_err in G as [G|(d2 & q & G & K)].
    + injection G as <- _. exact F.
    + apply bindM_err in K as [K|(d3 & u & _ & K)]; [|discriminate].
      apply fetch_err in K. contradiction.
Qed.

Lemma parse_agree fuel e c b d d' r :
  parse fuel e c b d = (d', r) -> agree (scratch ++ fetched) d d'.
Proof. intros H. generalize (writes_parse fuel e c b d). now rewrite H. Qed.

Lemma cpp_validate_ok fuel b p q :
  cpp_validate fuel b p = Ok q <-> validate fuel b true p = Ok q.
Proof.
  unfold cpp_validate. destruct (validate fuel b true p) as [r|[]]; split; congruence.
Qed.

Lemma parse_ok fuel e c b d d' q pb :
  parse fuel e c b d = (d', Ok (q, pb)) <->
  exists d1 p, parse_pre e c b d = (d1, Ok (p, pb)) /\
    validate fuel (lib e) true p = Ok q /\ m_fetch q pb d1 = (d', Ok tt).
Proof.
  unfold parse. rewrite bindM_ok. split.
  - intros (d1 & [p pb1] & H & G). apply bindM_ok in G as (d2 & q1 & G & K).
    apply readM_ok in G as [-> G]. apply bindM_ok in K as (d3 & [] & K & L).
    injection L as -> -> ->. apply cpp_validate_ok in G. now exists d1, p.
  - intros (d1 & p & H & G & K). exists d1, (p, pb). split; [exact H|].
    apply bindM_ok. exists d1, q. split; [apply readM_ok; split; [reflexivity|]|].
    + now apply cpp_validate_ok.
    + apply bindM_ok. now exists d', tt.
Qed.

(* ------------------------------------------------------------------ *)
(** * What a successful parse has read *)

Definition reads_path (d : dict) (o i s : string) : Prop := m_path o i d = (d, Ok s).

(** The entries of [d] read over the C++ set [c] give the C++ set [p]; grid
    numbers and cutoff are separate. *)
Record reads (e : pyenv) (c : params) (b : string) (d : dict) (p : params) (pb : string)
  : Prop := {
  rd_cdir : reads_path d "directories" "catalogues" (catalogue_dir (pths p));
  rd_mdir : reads_path d "directories" "measurements" (measurement_dir (pths p));
  rd_data : reads_path d "files" "data_catalogue" (data_file (pths p));
  rd_rand : reads_path d "files" "rand_catalogue" (rand_file (pths p));
  rd_tag : reads_path d "tags" "output" (output_tag (pths p));
  rd_box : r_triple to_float d "boxsize" (boxsize (smp c)) = Ok (boxsize (smp p));
  rd_expand : r_float d "expand" (expand (smp c)) = Ok (expand (smp p));
  rd_padfactor : r_float d "padfactor" (padfactor (smp c)) = Ok (padfactor (smp p));
  rd_alignment : r_lower d "alignment" (alignment (smp c)) = Ok (alignment (smp p));
  rd_padscale : r_lower d "padscale" (padscale (smp c)) = Ok (padscale (smp p));
  rd_assignment : r_lower d "assignment" (assignment (smp c)) = Ok (assignment (smp p));
  rd_interlace : r_str e d "interlace" (interlace (smp c)) = Ok (interlace (smp p));
  rd_volume : exists v, dget "volume" d = Some v /\ to_float v = Ok (volume (smp p)) /\
    v = match np_prod (values d "boxsize") with Some v => v | None => VNum 0 end;
  rd_ell1 : r_nested d "degrees" "ell1" (ell1 (msr c)) = Ok (ell1 (msr p));
  rd_ell2 : r_nested d "degrees" "ell2" (ell2 (msr c)) = Ok (ell2 (msr p));
  rd_ELL : r_nested d "degrees" "ELL" (ELL (msr c)) = Ok (ELL (msr p));
  rd_i : exists z, r_nested d "wa_orders" "i" 0%Z = Ok z;
  rd_j : exists z, r_nested d "wa_orders" "j" 0%Z = Ok z;
  rd_range : r_range d = Ok (bin_min (msr p), bin_max (msr p));
  rd_num_bins : r_num_bins d = Ok (num_bins (msr p));
  rd_idx_bin : r_int d "idx_bin" (idx_bin (msr c)) = Ok (idx_bin (msr p));
  rd_ctype : r_lower d "catalogue_type" (catalogue_type (msr c)) = Ok (catalogue_type (msr p));
  rd_stype : r_lower d "statistic_type" (statistic_type (msr c)) = Ok (statistic_type (msr p));
  rd_form : r_form d (form (msr c)) = Ok (form (msr p));
  rd_norm : r_lower d "norm_convention" (norm_convention (msr c)) = Ok (norm_convention (msr p));
  rd_binning : r_lower d "binning" (binning (msr c)) = Ok (binning (msr p));
  rd_space : r_derived d "space" ["fourier"; "config"] (space (msr c)) = Ok (space (msr p));
  rd_npoint : r_derived d "npoint" ["2pt"; "3pt"] (npoint (msr c)) = Ok (npoint (msr p));
  rd_order : r_order d (assignment_order (smp c)) = Ok (assignment_order (smp p));
  rd_scheme : r_scheme d (fftw_scheme (msc c)) = Ok (fftw_scheme (msc p));
  rd_wisdom : r_str e d "use_fftw_wisdom" (use_fftw_wisdom (msc c)) = Ok (use_fftw_wisdom (msc p));
  rd_verbose : exists z, r_int d "verbose" 0%Z = Ok z;
  rd_bar : r_str e d "progbar" b = Ok pb;
  rd_files : data_files (pths p) = data_files (pths c) /\ rand_files (pths p) = rand_files (pths c);
  rd_shape : shape (msr p) = shape (msr c);
  rd_misc : planner_flag (msc p) = planner_flag (msc c) /\
    wisdom_file_f (msc p) = wisdom_file_f (msc c) /\
    wisdom_file_b (msc p) = wisdom_file_b (msc c) /\
    save_binned_vectors (msc p) = save_binned_vectors (msc c)
}.

(** The grid numbers are read from the dictionary and the cutoff is not
    needed. *)
Definition reads_grid (c : params) (d : dict) (p : params) : Prop :=
  r_triple to_int d "ngrid" (ngrid (smp c)) = Ok (ngrid (smp p)) /\
  cutoff_nyq (smp p) = cutoff_nyq (smp c) /\
  exists v, dget "nmesh" d = Some v /\ to_int v = Ok (nmesh (smp p)) /\
    v = match np_prod (values d "ngrid") with Some v => v | None => VInt 0 end.

(** Readers look at their own keys only. *)
Lemma path_iff d o i s :
  reads_path d o i s <->
  match dget o d with
  | None => s = ""
  | Some (VDict f) => match dget i f with
                      | None => s = ""
                      | Some (VStr t) => s = t
                      | _ => False
                      end
  | _ => False
  end.
Proof.
  unfold reads_path, m_path. destruct (dget o d) as [[]|] eqn:E;
    try (split; [discriminate|tauto]); try (split; congruence).
  destruct (dget i d0) as [[]|] eqn:F;
    try (split; [discriminate|tauto]); try (split; congruence).
  split; [|tauto]. intros H. injection H as H _.
  assert (G := dget_dset_same o (VDict (dset i (VStr "") d0)) d).
  rewrite H, E in G. injection G as G.
  assert (K := dget_dset_same i (VStr "") d0). rewrite <- G, F in K. discriminate.
Qed.

Lemma path_ext d d' o i s :
  dget o d' = dget o d -> reads_path d o i s -> reads_path d' o i s.
Proof. rewrite !path_iff. now intros ->. Qed.

Lemma path_after o i d d' s : m_path o i d = (d', Ok s) -> reads_path d' o i s.
Proof.
  rewrite path_iff. unfold m_path. destruct (dget o d) as [[]|] eqn:E; try discriminate;
    try (destruct (dget i d0) as [[]|] eqn:F; try discriminate);
    intros H; injection H as <- <-; rewrite ?E, ?F, ?dget_dset_same, ?dget_dset_same; reflexivity.
Qed.

Lemma path_keeps o i o' i' d d' s s' :
  m_path o' i' d = (d', Ok s') -> o <> o' \/ i <> i' -> reads_path d o i s -> reads_path d' o i s.
Proof.
  intros H N R. destruct (String.eqb_spec o o') as [->|O].
  - destruct N as [N|N]; [congruence|]. revert H R. rewrite !path_iff. unfold m_path.
    destruct (dget o' d) as [[]|] eqn:E; try discriminate;
      try (destruct (dget i' d0) as [[]|] eqn:F; try discriminate);
      intros H; injection H as <- _; rewrite ?E, ?dget_dset_same; auto.
    now rewrite dget_dset_other.
  - eapply path_ext; [|exact R].
    generalize (writes_path o' i' [o'] (or_introl eq_refl) d). rewrite H. intros G.
    apply G. cbn. intuition congruence.
Qed.

Ltac ext_read := intros H; unfold r_triple, r_float, r_int, r_lower, r_str, r_nested, r_range,
  r_num_bins, r_form, r_lower, r_derived, r_order, r_scheme, values; now rewrite H.

Lemma triple_ext {A} (f : pyval -> res A) d d' k o :
  dget k d' = dget k d -> r_triple f d' k o = r_triple f d k o.
Proof. ext_read. Qed.
Lemma float_ext d d' k o : dget k d' = dget k d -> r_float d' k o = r_float d k o.
Proof. ext_read. Qed.
Lemma int_ext d d' k o : dget k d' = dget k d -> r_int d' k o = r_int d k o.
Proof. ext_read. Qed.
Lemma lower_ext d d' k o : dget k d' = dget k d -> r_lower d' k o = r_lower d k o.
Proof. ext_read. Qed.
Lemma str_ext e d d' k o : dget k d' = dget k d -> r_str e d' k o = r_str e d k o.
Proof. ext_read. Qed.
Lemma nested_ext d d' k i o : dget k d' = dget k d -> r_nested d' k i o = r_nested d k i o.
Proof. ext_read. Qed.
Lemma range_ext d d' : dget "range" d' = dget "range" d -> r_range d' = r_range d.
Proof. ext_read. Qed.
Lemma num_bins_ext d d' : dget "num_bins" d' = dget "num_bins" d -> r_num_bins d' = r_num_bins d.
Proof. ext_read. Qed.
Lemma form_ext d d' o :
  dget "form" d' = dget "form" d -> dget "idx_bin" d' = dget "idx_bin" d ->
  r_form d' o = r_form d o.
Proof. intros H G. unfold r_form, r_lower. now rewrite H, G. Qed.
Lemma derived_ext d d' k l o : dget k d' = dget k d -> r_derived d' k l o = r_derived d k l o.
Proof. ext_read. Qed.
Lemma order_ext d d' o :
  dget "assignment_order" d' = dget "assignment_order" d -> r_order d' o = r_order d o.
Proof. ext_read. Qed.
Lemma scheme_ext d d' o :
  dget "fftw_scheme" d' = dget "fftw_scheme" d -> r_scheme d' o = r_scheme d o.
Proof. ext_read. Qed.
Lemma values_ext d d' k : dget k d' = dget k d -> values d' k = values d k.
Proof. ext_read. Qed.

Lemma volume_after d d' x :
  m_volume d = (d', Ok x) ->
  agree ["volume"] d d' /\
  exists v, dget "volume" d' = Some v /\ to_float v = Ok x /\
    v = match np_prod (values d' "boxsize") with Some v => v | None => VNum 0 end.
Proof.
  unfold m_volume. intros H. apply bindM_ok in H as (d1 & [] & H & G).
  injection H as <-. apply readM_ok in G as [-> G]. rewrite dget_dset_same in G.
  set (w := match np_prod (values d "boxsize") with Some v => v | None => VNum 0 end) in *.
  split; [apply agree_dset; inlist|]. exists w. rewrite dget_dset_same.
  split; [reflexivity|]. split; [exact G|].
  now rewrite (values_ext d (dset "volume" w d) "boxsize") by (apply dget_dset_other; discriminate).
Qed.

Lemma nmesh_after d d' x :
  m_nmesh d = (d', Ok x) ->
  agree ["nmesh"] d d' /\
  exists v, dget "nmesh" d' = Some v /\ to_int v = Ok x /\
    v = match np_prod (values d' "ngrid") with Some v => v | None => VInt 0 end.
Proof.
  unfold m_nmesh. intros H. apply bindM_ok in H as (d1 & [] & H & G).
  injection H as <-. apply readM_ok in G as [-> G]. rewrite dget_dset_same in G.
  set (w := match np_prod (values d "ngrid") with Some v => v | None => VInt 0 end) in *.
  split; [apply agree_dset; inlist|]. exists w. rewrite dget_dset_same.
  split; [reflexivity|]. split; [exact G|].
  now rewrite (values_ext d (dset "nmesh" w d) "ngrid") by (apply dget_dset_other; discriminate).
Qed.

(** The cutoff step writes grid numbers only. *)
Lemma axis_after a d d' u : m_axis a d = (d', Ok u) -> agree ["ngrid"] d d'.
Proof.
  unfold m_axis. intros H. apply bindM_ok in H as (d1 & n & H & G).
  apply readM_ok in H as [-> _]. injection G as <- _.
  destruct (dget "ngrid" d) as [[]|]; try apply agree_refl. apply agree_dset. inlist.
Qed.

Lemma cutoff_after v m o d d' x :
  m_cutoff v m o d = (d', Ok x) ->
  agree ["ngrid"] d d' /\ (m <> 0%Z -> d' = d /\ x = o).
Proof.
  unfold m_cutoff. destruct (Z.eqb_spec m 0) as [->|N].
  - intros H. split; [|tauto]. revert H.
    destruct (dget "cutoff_nyq" d) as [v0|]; [|discriminate].
    assert (P : forall y, to_float v0 = Ok y ->
      (if Rltb 0 v then bindM m_set_ngrid (fun _ => retM y) d else (d, Ok y)) = (d', Ok x) ->
      agree ["ngrid"] d d').
    { intros y _. destruct (Rltb 0 v).
      - intros H. apply bindM_ok in H as (d1 & [] & H & G). injection G as <- _.
        unfold m_set_ngrid in H. apply bindM_ok in H as (d2 & [] & H2 & H).
        apply bindM_ok in H as (d3 & [] & H3 & H).
        apply axis_after in H, H2, H3. eauto using agree_trans.
      - intros [= <- _]. apply agree_refl. }
    destruct v0; try discriminate; cbn [to_float] in *; (eapply P; reflexivity).
  - intros [= <- <-]. split; [apply agree_refl|auto].
Qed.

Lemma not_in_list k l : existsb (String.eqb k) l = false -> ~ In k l.
Proof.
  intros E I. assert (X : existsb (String.eqb k) l = true); [|congruence].
  apply existsb_exists. exists k. split; [exact I|apply String.eqb_refl].
Qed.

Ltac notin := first [apply not_in_list; reflexivity|clear; cbn; intuition discriminate].

(** A successful first phase. *)
Lemma pre_inv e c b d d' p pb :
  parse_pre e c b d = (d', Ok (p, pb)) ->
  reads e c b d' p pb /\
  (exists v, dget "nmesh" d' = Some v /\ to_int v = Ok (nmesh (smp p))) /\
  (nmesh (smp p) <> 0%Z -> reads_grid c d' p).
Proof.
  unfold parse_pre. intros H.
  apply bindM_ok in H as (d1 & cdir & P1 & H).
  apply bindM_ok in H as (d2 & mdir & P2 & H).
  apply bindM_ok in H as (d3 & dfile & P3 & H).
  apply bindM_ok in H as (d4 & rfile & P4 & H).
  apply bindM_ok in H as (d5 & tag & P5 & H).
  cbv zeta in H.
  do 8 (let x := fresh "x" in let G := fresh "G" in
        apply bindM_ok in H as (? & x & G & H); apply readM_ok in G as [-> G]).
  apply bindM_ok in H as (d6 & vl & V & H).
  apply bindM_ok in H as (d7 & nm & W & H).
  do 8 (let x := fresh "y" in let G := fresh "G" in
        apply bindM_ok in H as (? & x & G & H); apply readM_ok in G as [-> G]).
  apply bindM_ok in H as (d8 & cut & K & H).
  do 12 (let x := fresh "z" in let G := fresh "G" in
        apply bindM_ok in H as (? & x & G & H); apply readM_ok in G as [-> G]).
  injection H as <- <- <-.
  apply volume_after in V as [A6 V]. apply nmesh_after in W as [A7 W].
  apply cutoff_after in K as [A8 K].
  assert (A : agree ["volume"; "nmesh"; "ngrid"] d5 d8).
  { eapply agree_trans; [eapply agree_incl; [|exact A6]; intros k; inlist|].
    eapply agree_trans; [eapply agree_incl; [|exact A7]; intros k; inlist|].
    eapply agree_incl; [|exact A8]; intros k; inlist. }
  assert (Q1 := path_after _ _ _ _ _ P1). assert (Q2 := path_after _ _ _ _ _ P2).
  assert (Q3 := path_after _ _ _ _ _ P3). assert (Q4 := path_after _ _ _ _ _ P4).
  assert (Q5 := path_after _ _ _ _ _ P5).
  assert (R1 : reads_path d5 "directories" "catalogues" cdir).
  { eapply path_keeps; [exact P5|left; discriminate|].
    eapply path_keeps; [exact P4|left; discriminate|].
    eapply path_keeps; [exact P3|left; discriminate|].
    eapply path_keeps; [exact P2|right; discriminate|]. exact Q1. }
  assert (R2 : reads_path d5 "directories" "measurements" mdir).
  { eapply path_keeps; [exact P5|left; discriminate|].
    eapply path_keeps; [exact P4|left; discriminate|].
    eapply path_keeps; [exact P3|left; discriminate|]. exact Q2. }
  assert (R3 : reads_path d5 "files" "data_catalogue" dfile).
  { eapply path_keeps; [exact P5|left; discriminate|].
    eapply path_keeps; [exact P4|right; discriminate|]. exact Q3. }
  assert (R4 : reads_path d5 "files" "rand_catalogue" rfile).
  { eapply path_keeps; [exact P5|left; discriminate|]. exact Q4. }
  split; [|split].
  - assert (N1 : forall k, ~ In k ["ngrid"] -> dget k d8 = dget k d7) by exact A8.
    constructor; cbn [pths smp msr msc catalogue_dir measurement_dir data_file rand_file output_tag
      boxsize expand padfactor alignment padscale assignment interlace volume ell1 ell2 ELL
      bin_min bin_max num_bins idx_bin catalogue_type statistic_type form norm_convention binning
      space npoint assignment_order fftw_scheme use_fftw_wisdom data_files rand_files shape
      planner_flag wisdom_file_f wisdom_file_b save_binned_vectors];
      try (eapply path_ext; [apply A; notin|assumption]);
      try (rewrite (triple_ext _ d5) by (apply A; notin); assumption);
      try (rewrite (float_ext d5) by (apply A; notin); assumption);
      try (rewrite (lower_ext d5) by (apply A; notin); assumption);
      try (rewrite (str_ext e d5) by (apply A; notin); assumption);
      try (rewrite (nested_ext d7) by (apply N1; notin); eauto; fail);
      try (rewrite (range_ext d7) by (apply N1; notin); destruct y4; assumption);
      try (rewrite (num_bins_ext d7) by (apply N1; notin); assumption);
      try (rewrite (int_ext d7) by (apply N1; notin); assumption);
      try assumption; eauto.
    destruct V as (v & V1 & V2 & V3). exists v. split; [|split; [exact V2|]].
    + rewrite N1 by notin. rewrite A7 by notin. exact V1.
    + rewrite (values_ext d6 d8); [exact V3|]. rewrite N1 by notin. apply A7. notin.
  - cbn [smp nmesh]. destruct W as (v & W1 & W2 & W3). exists v. split; [|exact W2].
    rewrite A8 by notin. exact W1.
  - cbn [smp nmesh]. intros N. destruct (K N) as [-> ->]. unfold reads_grid.
    cbn [smp nmesh ngrid cutoff_nyq]. split; [|split; [reflexivity|exact W]].
    rewrite (triple_ext _ d5); [assumption|]. rewrite A7, A6 by notin. reflexivity.
Qed.

Lemma bindM_run {A B} (m : M A) (f : A -> M B) d a r :
  m d = (d, Ok a) -> f a d = r -> bindM m f d = r.
Proof. unfold bindM. now intros ->. Qed.

Lemma readM_run {A} (f : dict -> res A) d a : f d = Ok a -> readM f d = (d, Ok a).
Proof. unfold readM. now intros ->. Qed.

Lemma volume_run d x :
  (exists v, dget "volume" d = Some v /\ to_float v = Ok x /\
    v = match np_prod (values d "boxsize") with Some v => v | None => VNum 0 end) ->
  m_volume d = (d, Ok x).
Proof.
  intros (v & H & G & E). unfold m_volume. eapply bindM_run.
  - unfold writeM. rewrite <- E. rewrite (dset_present _ _ _ H). reflexivity.
  - unfold readM. now rewrite H, G.
Qed.

Lemma nmesh_run d x :
  (exists v, dget "nmesh" d = Some v /\ to_int v = Ok x /\
    v = match np_prod (values d "ngrid") with Some v => v | None => VInt 0 end) ->
  m_nmesh d = (d, Ok x).
Proof.
  intros (v & H & G & E). unfold m_nmesh. eapply bindM_run.
  - unfold writeM. rewrite <- E. rewrite (dset_present _ _ _ H). reflexivity.
  - unfold readM. now rewrite H, G.
Qed.

Lemma cutoff_run v m o d : m <> 0%Z -> m_cutoff v m o d = (d, Ok o).
Proof. intros N. unfold m_cutoff. now destruct (Z.eqb_spec m 0). Qed.

(** The same facts the other way round: reading settled entries gives the
    same set and changes nothing. *)
Lemma pre_run e c b d p pb :
  reads e c b d p pb -> reads_grid c d p -> nmesh (smp p) <> 0%Z ->
  parse_pre e c b d = (d, Ok (p, pb)).
Proof.
  intros [] (G1 & G2 & G3) N. unfold parse_pre. cbv zeta.
  do 5 (eapply bindM_run; [eassumption|]).
  do 8 (eapply bindM_run; [eapply readM_run; eassumption|]).
  eapply bindM_run; [eapply volume_run; eassumption|].
  eapply bindM_run; [eapply nmesh_run; eassumption|].
  destruct rd_i0 as [zi Zi], rd_j0 as [zj Zj], rd_verbose0 as [zv Zv].
  do 8 (eapply bindM_run; [eapply readM_run; eassumption|]).
  eapply bindM_run; [apply (cutoff_run _ _ _ _ N)|].
  do 12 (eapply bindM_run; [eapply readM_run; eassumption|]).
  unfold retM. destruct rd_files0 as [F1 F2], rd_misc0 as (M1 & M2 & M3 & M4).
  rewrite <- G2, <- F1, <- F2, <- M1, <- M2, <- M3, <- M4, <- rd_shape0. cbn [fst snd].
  destruct p as [[] [] [] []]. reflexivity.
Qed.

(* ------------------------------------------------------------------ *)
(** * Fetching *)

(** The entries fetched from the C++ set [q] and the progress-bar string. *)
Record shows (q : params) (pb : string) (d : dict) : Prop := {
  sh_order : dget "assignment_order" d = Some (VInt (assignment_order (smp q)));
  sh_npoint : dget "npoint" d = Some (VStr (npoint (msr q)));
  sh_space : dget "space" d = Some (VStr (space (msr q)));
  sh_planner : dget "fftw_planner_flag" d = Some (VInt (planner_int (planner_flag (msc q))));
  sh_wisdom_f : dget "fftw_wisdom_file_f" d = Some (VStr (wisdom_file_f (msc q)));
  sh_wisdom_b : dget "fftw_wisdom_file_b" d = Some (VStr (wisdom_file_b (msc q)));
  sh_wisdom : dget "use_fftw_wisdom" d =
    Some (if (lower (use_fftw_wisdom (msc q)) =? "false") || (lower (use_fftw_wisdom (msc q)) =? "")
          then VBool false else VStr (use_fftw_wisdom (msc q)));
  sh_interlace : exists v, dget "interlace" d = Some (VBool v) /\
    lower (interlace (smp q)) = if v then "true" else "false";
  sh_bar : (exists z, int_of_str pb = Some z /\ dget "progbar" d = Some (VInt z)) \/
    (int_of_str pb = None /\ exists v, dget "progbar" d = Some (VBool v) /\
       pb = if v then "true" else "false")
}.

Ltac other := repeat (rewrite dget_dset_other by (intros ?; discriminate)); rewrite dget_dset_same; reflexivity.

Lemma fetch_ok q pb d d' : m_fetch q pb d = (d', Ok tt) -> shows q pb d'.
Proof.
  unfold m_fetch. cbv zeta. intros H.
  do 7 (apply bindM_ok in H as (? & ? & [= <- _] & H)).
  apply bindM_ok in H as (d1 & u & I & H).
  assert (X : exists v, d1 = dset "interlace" (VBool v) (dset "use_fftw_wisdom"
      (if (lower (use_fftw_wisdom (msc q)) =? "false") || (lower (use_fftw_wisdom (msc q)) =? "")
       then VBool false else VStr (use_fftw_wisdom (msc q)))
      (dset "fftw_wisdom_file_b" (VStr (wisdom_file_b (msc q)))
      (dset "fftw_wisdom_file_f" (VStr (wisdom_file_f (msc q)))
      (dset "fftw_planner_flag" (VInt (planner_int (planner_flag (msc q))))
      (dset "space" (VStr (space (msr q))) (dset "npoint" (VStr (npoint (msr q)))
      (dset "assignment_order" (VInt (assignment_order (smp q))) d))))))) /\
      lower (interlace (smp q)) = if v then "true" else "false").
  { destruct (lower (interlace (smp q)) =? "true") eqn:E.
    - apply String.eqb_eq in E. injection I as <- _. exists true. now split.
    - destruct (lower (interlace (smp q)) =? "false") eqn:F.
      + apply String.eqb_eq in F. injection I as <- _. exists false. now split.
      + discriminate. }
  destruct X as (v & -> & L). clear I.
  assert (Y : exists w, d' = dset "progbar" w (dset "interlace" (VBool v) (dset "use_fftw_wisdom"
      (if (lower (use_fftw_wisdom (msc q)) =? "false") || (lower (use_fftw_wisdom (msc q)) =? "")
       then VBool false else VStr (use_fftw_wisdom (msc q)))
      (dset "fftw_wisdom_file_b" (VStr (wisdom_file_b (msc q)))
      (dset "fftw_wisdom_file_f" (VStr (wisdom_file_f (msc q)))
      (dset "fftw_planner_flag" (VInt (planner_int (planner_flag (msc q))))
      (dset "space" (VStr (space (msr q))) (dset "npoint" (VStr (npoint (msr q)))
      (dset "assignment_order" (VInt (assignment_order (smp q))) d)))))))) /\
      ((exists z, int_of_str pb = Some z /\ w = VInt z) \/
       (int_of_str pb = None /\ exists v, w = VBool v /\ pb = if v then "true" else "false"))).
  { destruct (int_of_str pb) as [z|] eqn:E.
    - injection H as <-. exists (VInt z). split; [reflexivity|]. left. now exists z.
    - destruct (pb =? "true") eqn:F; [|destruct (pb =? "false") eqn:F2; [|discriminate]].
      + apply String.eqb_eq in F. injection H as <-. exists (VBool true). split; [reflexivity|].
        right. split; [reflexivity|]. now exists true.
      + apply String.eqb_eq in F2. injection H as <-. exists (VBool false). split; [reflexivity|].
        right. split; [reflexivity|]. now exists false. }
  destruct Y as (w & -> & Y). clear H.
  constructor; try other.
  - exists v. split; [other|exact L].
  - destruct Y as [(z & Z1 & ->)|(Z1 & v' & -> & Z2)].
    + left. exists z. split; [exact Z1|other].
    + right. split; [exact Z1|]. exists v'. split; [other|exact Z2].
Qed.

Lemma put_run k v d : dget k d = Some v -> put k v d = (d, Ok tt).
Proof. intros H. unfold put, writeM. now rewrite (dset_present _ _ _ H). Qed.

Lemma fetch_run q pb d : shows q pb d -> m_fetch q pb d = (d, Ok tt).
Proof.
  intros []. unfold m_fetch. cbv zeta.
  do 7 (eapply bindM_run; [apply put_run; assumption|]).
  eapply bindM_run.
  - destruct sh_interlace0 as (v & I & ->). destruct v; cbn [String.eqb]; apply put_run, I.
  - destruct sh_bar0 as [(z & -> & B)|(-> & v & B & ->)]; [now apply put_run|].
    destruct v; now apply put_run.
Qed.
