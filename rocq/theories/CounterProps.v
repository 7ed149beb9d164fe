(* Properties of the resource counters: C36. *)
From Coq Require Import ZArith List Lia Bool.
From Verif Require Import Base CounterModel.
Import ListNotations.
Open Scope Z_scope.

(** ** Vocabulary: what the live objects hold *)

Definition b2z (b : bool) : Z := if b then 1 else 0.

(** Complex and real grids held by an object, and its bytes. *)
Definition complex_grids (o : obj) : Z :=
  match o with Field _ s _ => 1 + b2z s | Stats _ p _ => b2z p | Cat _ _ => 0 | Scratch _ => 4 end.
Definition real_grids (o : obj) : Z :=
  match o with Field _ _ w => b2z (negb (w =? -1)) | Stats _ _ al => b2z al | _ => 0 end.
Definition cells (o : obj) : Z := match o with Field n _ _ | Stats n _ _ | Scratch n => n | Cat _ _ => 0 end.
Definition particle_count (o : obj) : Z := match o with Cat n true => n | _ => 0 end.

Fixpoint sum_over (f : obj -> Z) (h : heap) : Z :=
  match h with [] => 0 | p :: h => f (snd p) + sum_over f h end.

Definition bytes (o : obj) : Z :=
  16 * (complex_grids o * cells o) + 8 * (real_grids o * cells o) + 56 * particle_count o.

(** Operations given sensible sizes; assignment orders are 1 to 4 after validation
    (parameters.cpp 659-683). *)
Definition sized_birth (b : birth) : Prop :=
  match b with NewField n _ | NewStats n _ | NewScratch n => 0 <= n | NewCat => True end.
Definition sized_temp (t : temp) : Prop :=
  match t with TWeight n | TVectors n => 0 <= n | TWeights n m => 0 <= n /\ 0 <= m end.
Definition sized (o : cop) : Prop :=
  match o with Create _ b => sized_birth b | Temp t => sized_temp t | Window _ w => 0 <= w | _ => True end.

(** A load that does not replace data of another size. *)
Definition fresh_load (o : cop) (h : heap) : Prop :=
  match o with
  | Load x num => forall n, lookup x h = Some (Cat n true) -> n = num
  | _ => True
  end.

(** A history from a state, with the counter states seen on the way. *)
Inductive history (ok : cop -> heap -> Prop) : state -> list counters -> state -> Prop :=
| hist_nil s : history ok s [] s
| hist_op s vs s' o ws s'' : history ok s vs s' -> sized o -> ok o (snd s') ->
    run o s' = Ok (ws, s'') -> history ok s (vs ++ ws) s''.

Definition start : state := (counters0, []).

(** ** Proofs *)

Lemma sum_remove f x o h : lookup x h = Some o -> sum_over f (remove x h) = sum_over f h - f o.
Proof.
  induction h as [|[y o'] h IH]; cbn; [discriminate|]. destruct (Nat.eqb x y); [intros E; injection E as ->; lia|].
  intros E. cbn. rewrite (IH E). lia.
Qed.

Lemma sum_replace f x o o' h : lookup x h = Some o -> sum_over f (replace x o' h) = sum_over f h - f o + f o'.
Proof.
  induction h as [|[y p] h IH]; cbn; [discriminate|]. destruct (Nat.eqb x y); [intros E; injection E as ->; cbn; lia|].
  intros E. cbn. rewrite (IH E). lia.
Qed.

Lemma exec_app ms ns c : exec (ms ++ ns) c = exec ns (exec ms c).
Proof. revert c. induction ms; intros; cbn; auto. Qed.

(** Net effect of a list of statements on the running values. *)
Definition net (ms : list micro) : Z * Z * Z * Z :=
  fold_right (fun m '(r, k, g, b) => match m with AddR d => (r + d, k, g, b) | AddC d => (r, k + d, g, b)
    | AddG d => (r, k, g + d, b) | AddM d => (r, k, g, b + d) | _ => (r, k, g, b) end) (0, 0, 0, 0) ms.

Lemma exec_net ms : forall c, let '(r, k, g, b) := net ms in
  rgrid (exec ms c) = rgrid c + r /\ cgrid (exec ms c) = cgrid c + k /\ grid2 (exec ms c) = grid2 c + g /\ mem (exec ms c) = mem c + b.
Proof.
  induction ms as [|m ms IH]; intros c; cbn [net fold_right exec]; [lia|].
  specialize (IH (step m c)). fold (net ms). destruct (net ms) as [[[r k] g] b].
  destruct c, m; cbn in *; lia.
Qed.

(** Every operation changes the counters by the change of what the objects hold, apart
    from the memory of a reload. *)
Definition drift (o : cop) (h : heap) : Z :=
  match o with
  | Load x num => match lookup x h with Some (Cat n true) => 56 * (n - num) | _ => 0 end
  | _ => 0
  end.

Arguments Z.mul : simpl never.

Lemma tup (a a' b b' c c' d d' : Z) : a = a' -> b = b' -> c = c' -> d = d' -> (a, b, c, d) = (a', b', c', d').
Proof. congruence. Qed.

Ltac unf := unfold bytes, complex_grids, real_grids, cells, particle_count.
Ltac eff := unf; unfold complex_grid, free_complex_grid, real_grid, free_real_grid, reset_particles, use_temp, net, sz_complex, sz_double, sz_int, sz_particle;
  cbn [app fold_right b2z negb snd drift]; apply tup; lia.

Lemma op_effect o h ms h' : sized o -> run_cop o h = Ok (ms, h') ->
  net ms = (sum_over real_grids h' - sum_over real_grids h,
            sum_over complex_grids h' - sum_over complex_grids h,
            2 * (sum_over complex_grids h' - sum_over complex_grids h) + (sum_over real_grids h' - sum_over real_grids h),
            sum_over bytes h' - sum_over bytes h + drift o h).
Proof.
  intros Sz E. destruct o as [x b|x|x w|x|x num|t]; cbn [run_cop] in E.
  - destruct (lookup x h); [discriminate|]. destruct b as [n il|n p| |n]; cbn [construct] in E; injection E as <- <-; cbn [drift sum_over snd];
      generalize (sum_over real_grids h) (sum_over complex_grids h) (sum_over bytes h); intros ? ? ?;
      unf; change (-1 =? -1) with true; try destruct il; try destruct p; eff.
  - destruct (lookup x h) as [ob|] eqn:L; [|discriminate]. injection E as <- <-.
    rewrite !(sum_remove _ x ob h L). cbn [drift].
    destruct ob as [n s w|n p al|n has|n]; cbn [destruct_obj].
    + unf; destruct (negb (w =? -1)), s; eff.
    + destruct p, al; eff.
    + destruct has; eff.
    + eff.
  - destruct (lookup x h) as [[n s v| | |]|] eqn:L; try discriminate. unfold compute_window in E.
    destruct (v =? w) eqn:V; [|destruct (v =? -1) eqn:V1].
    + injection E as <- <-. rewrite !(sum_replace _ x _ (Field n s v) h L). eff.
    + injection E as <- <-. rewrite !(sum_replace _ x _ (Field n s w) h L). cbn [drift].
      assert (W : (w =? -1) = false) by (apply Z.eqb_eq in V1; subst v; rewrite Z.eqb_sym; exact V).
      unf; rewrite V1, W. eff.
    + injection E as <- <-. rewrite !(sum_replace _ x _ (Field n s w) h L). cbn [drift].
      assert (W : (w =? -1) = false) by (apply Z.eqb_neq; cbn in Sz; lia).
      unf; rewrite V1, W. eff.
  - destruct (lookup x h) as [[ |n p al| |]|] eqn:L; try discriminate. unfold compute_alias in E. destruct al; injection E as <- <-.
    + rewrite !(sum_replace _ x _ (Stats n p true) h L). eff.
    + rewrite !(sum_replace _ x _ (Stats n p true) h L). cbn [drift].
      eff.
  - destruct (lookup x h) as [[ | |n has|]|] eqn:L; try discriminate. unfold initialise_particles in E.
    destruct (num <=? 0); [discriminate|]. cbn [bind fst snd] in E. injection E as <- <-.
    rewrite !(sum_replace _ x _ (Cat num true) h L). cbn [drift]. rewrite L.
    destruct has; eff.
  - injection E as <- <-. cbn [drift]. destruct t; eff.
Qed.

(** Grid counters are exactly what is held, whatever the history. *)
Theorem grid_counters_exact :
  forall s vs s', history (fun _ _ => True) s vs s' ->
  rgrid (fst s') - rgrid (fst s) = sum_over real_grids (snd s') - sum_over real_grids (snd s) /\
  cgrid (fst s') - cgrid (fst s) = sum_over complex_grids (snd s') - sum_over complex_grids (snd s) /\
  grid2 (fst s') - grid2 (fst s) =
    2 * (sum_over complex_grids (snd s') - sum_over complex_grids (snd s)) + (sum_over real_grids (snd s') - sum_over real_grids (snd s)).
Proof.
  intros s vs s' H. induction H as [|s vs [c h] o ws s'' H IH Sz _ E]; [lia|].
  unfold run in E. cbn [snd fst] in *. destruct (run_cop o h) as [[ms h']|] eqn:R; [|discriminate]. cbn [bind fst snd] in E.
  injection E as <- <-. cbn [fst snd]. assert (N := exec_net ms c). rewrite (op_effect o h ms h' Sz R) in N. lia.
Qed.

Lemma fresh_drift o h : fresh_load o h -> drift o h = 0.
Proof.
  destruct o; cbn; try reflexivity. intros F. destruct (lookup x h) as [[ | |n [|]|]|]; try reflexivity.
  rewrite (F n eq_refl). lia.
Qed.

(** So is memory, when no catalogue is reloaded with another number of particles. *)
Theorem memory_exact :
  forall s vs s', history fresh_load s vs s' ->
  mem (fst s') - mem (fst s) = sum_over bytes (snd s') - sum_over bytes (snd s).
Proof.
  intros s vs s' H. induction H as [|s vs [c h] o ws s'' H IH Sz F E]; [lia|].
  unfold run in E. cbn [snd fst] in *. destruct (run_cop o h) as [[ms h']|] eqn:R; [|discriminate]. cbn [bind fst snd] in E.
  injection E as <- <-. cbn [fst snd]. assert (N := exec_net ms c). rewrite (op_effect o h ms h' Sz R), (fresh_drift o h F) in N. lia.
Qed.

(** In general it is off by 56 bytes times the particles lost or gained at each reload. *)
Fixpoint total_drift (os : list (cop * heap)) : Z :=
  match os with [] => 0 | (o, h) :: os => drift o h + total_drift os end.

Inductive history_ops : state -> list (cop * heap) -> state -> Prop :=
| ho_nil s : history_ops s [] s
| ho_op s os s' o ws s'' : history_ops s os s' -> sized o -> run o s' = Ok (ws, s'') -> history_ops s ((o, snd s') :: os) s''.

Theorem memory_drift :
  forall s os s', history_ops s os s' ->
  mem (fst s') - mem (fst s) = sum_over bytes (snd s') - sum_over bytes (snd s) + total_drift os.
Proof.
  intros s os s' H. induction H as [|s os [c h] o ws s'' H IH Sz E]; [cbn; lia|].
  unfold run in E. cbn [snd fst] in *. destruct (run_cop o h) as [[ms h']|] eqn:R; [|discriminate]. cbn [bind fst snd] in E.
  injection E as <- <-. cbn [fst snd total_drift]. assert (N := exec_net ms c). rewrite (op_effect o h ms h' Sz R) in N. lia.
Qed.

(** Once everything is destroyed the counters are back at their starting values. *)
Theorem counters_return :
  forall c vs c', history fresh_load (c, []) vs (c', []) ->
  rgrid c' = rgrid c /\ cgrid c' = cgrid c /\ grid2 c' = grid2 c /\ mem c' = mem c.
Proof.
  intros c vs c' H. assert (M := memory_exact _ _ _ H).
  assert (H' : history (fun _ _ => True) (c, []) vs (c', [])) by (clear M; induction H; econstructor; eauto).
  destruct (grid_counters_exact _ _ _ H') as [A [B D]]. cbn in *. lia.
Qed.

(** Sizes held are never negative. *)
Definition sized_obj (o : obj) : Prop :=
  match o with Field n _ _ | Stats n _ _ | Scratch n | Cat n _ => 0 <= n end.
Definition sized_heap (h : heap) : Prop := forall x o, lookup x h = Some o -> sized_obj o.
Definition all_sized (h : heap) : Prop := Forall (fun p => sized_obj (snd p)) h.

Lemma all_sized_lookup x o h : all_sized h -> lookup x h = Some o -> sized_obj o.
Proof.
  intros A. induction A as [|[y p] h P A IH]; cbn; [discriminate|]. destruct (Nat.eqb x y); [intros E; injection E as <-; exact P|exact IH].
Qed.
Lemma all_sized_remove x h : all_sized h -> all_sized (remove x h).
Proof. intros A. induction A as [|[y p] h P A IH]; cbn; [constructor|]. destruct (Nat.eqb x y); [exact A|constructor; assumption]. Qed.
Lemma all_sized_replace x o h : all_sized h -> sized_obj o -> all_sized (replace x o h).
Proof. intros A So. induction A as [|[y p] h P A IH]; cbn; [constructor|]. destruct (Nat.eqb x y); constructor; assumption. Qed.

Lemma run_cop_sized o h ms h' : all_sized h -> sized o -> run_cop o h = Ok (ms, h') -> all_sized h'.
Proof.
  intros A Sz E. destruct o as [x b|x|x w|x|x num|t]; cbn [run_cop] in E.
  - destruct (lookup x h); [discriminate|]. destruct b; cbn in E; injection E as <- <-; constructor; cbn in *; try lia; exact A.
  - destruct (lookup x h); [|discriminate]. injection E as <- <-. apply all_sized_remove, A.
  - destruct (lookup x h) as [[n s v| | |]|] eqn:L; try discriminate. assert (P := all_sized_lookup _ _ _ A L). unfold compute_window in E.
    destruct (v =? w); injection E as <- <-; apply all_sized_replace; assumption.
  - destruct (lookup x h) as [[ |n p al| |]|] eqn:L; try discriminate. assert (P := all_sized_lookup _ _ _ A L). unfold compute_alias in E.
    destruct al; injection E as <- <-; apply all_sized_replace; assumption.
  - destruct (lookup x h) as [[ | |n has|]|] eqn:L; try discriminate. unfold initialise_particles in E.
    destruct (num <=? 0) eqn:Q; [discriminate|]. cbn in E. injection E as <- <-. apply all_sized_replace; [exact A|]. cbn. lia.
  - injection E as <- <-. exact A.
Qed.

Lemma sum_nonneg f h : all_sized h -> (forall o, sized_obj o -> 0 <= f o) -> 0 <= sum_over f h.
Proof. intros A P. induction A as [|[y o] h Q A IH]; cbn; [lia|]. specialize (P o Q). lia. Qed.

Lemma bytes_nonneg o : sized_obj o -> 0 <= bytes o.
Proof.
  unfold bytes, complex_grids, real_grids, cells, particle_count.
  destruct o as [n s w|n p al|n has|n]; cbn; intros P.
  - destruct s, (negb (w =? -1)); cbn [b2z]; lia.
  - destruct p, al; cbn [b2z]; lia.
  - destruct has; lia.
  - lia.
Qed.

(** ** Running maxima and signs at every statement *)

Definition nonneg (c : counters) : Prop := 0 <= rgrid c /\ 0 <= cgrid c /\ 0 <= grid2 c /\ 0 <= mem c.

Definition maxima_above (c : counters) : Prop :=
  rgrid c <= max_rgrid c /\ cgrid c <= max_cgrid c /\ grid2 c <= max_grid2 c /\ mem c <= max_mem c.

Definition peak (f : counters -> Z) (m0 : Z) (vs : list counters) : Z := fold_left (fun m c => Z.max m (f c)) vs m0.

(** The maxima of [c'] are the largest values seen since [c]. *)
Definition maxima_of (c : counters) (vs : list counters) (c' : counters) : Prop :=
  max_rgrid c' = peak rgrid (max_rgrid c) vs /\ max_cgrid c' = peak cgrid (max_cgrid c) vs /\
  max_grid2 c' = peak grid2 (max_grid2 c) vs /\ max_mem c' = peak mem (max_mem c) vs.

Lemma if_ltb_max a b : (if a <? b then b else a) = Z.max a b.
Proof. destruct (Z.ltb_spec a b); lia. Qed.

Lemma maxima_app c vs c' ws c'' : maxima_of c vs c' -> maxima_of c' ws c'' -> maxima_of c (vs ++ ws) c''.
Proof.
  intros [A [B [D E]]] [A' [B' [D' E']]]. unfold maxima_of, peak. rewrite !fold_left_app.
  fold (peak rgrid (max_rgrid c) vs) (peak cgrid (max_cgrid c) vs) (peak grid2 (max_grid2 c) vs) (peak mem (max_mem c) vs).
  rewrite <- A, <- B, <- D, <- E. auto.
Qed.

(** A block of statements that keeps the maxima right. *)
Definition good_block (ms : list micro) : Prop :=
  forall c, maxima_above c -> maxima_of c (visited ms c) (exec ms c) /\ maxima_above (exec ms c).

Lemma visited_app ms ns c : visited (ms ++ ns) c = visited ms c ++ visited ns (exec ms c).
Proof. revert c. induction ms; intros; cbn; [reflexivity|]. rewrite IHms. reflexivity. Qed.

Lemma good_app ms ns : good_block ms -> good_block ns -> good_block (ms ++ ns).
Proof.
  intros A B c M. rewrite visited_app, exec_app. destruct (A c M) as [A1 A2]. destruct (B _ A2) as [B1 B2].
  split; [eapply maxima_app; eassumption|exact B2].
Qed.

Lemma good_nil : good_block [].
Proof. intros c M. split; [repeat split|exact M]. Qed.

Ltac block := intros [r k g b mr mk mg mb] M; unfold maxima_above, maxima_of, peak in *;
  cbn [rgrid cgrid grid2 mem max_rgrid max_cgrid max_grid2 max_mem] in M; destruct M as [? [? [? ?]]];
  cbn [visited exec step fold_left rgrid cgrid grid2 mem max_rgrid max_cgrid max_grid2 max_mem];
  rewrite ?if_ltb_max; repeat split; lia.

Lemma good_complex n : 0 <= n -> good_block (complex_grid n).
Proof. intros P. unfold complex_grid, sz_complex. block. Qed.
Lemma good_real n : 0 <= n -> good_block (real_grid n).
Proof. intros P. unfold real_grid, sz_double. block. Qed.
Lemma good_free_complex n : 0 <= n -> good_block (free_complex_grid n).
Proof. intros P. unfold free_complex_grid, sz_complex. block. Qed.
Lemma good_free_real n : 0 <= n -> good_block (free_real_grid n).
Proof. intros P. unfold free_real_grid, sz_double. block. Qed.
Lemma good_reset n has : 0 <= n -> good_block (reset_particles n has).
Proof. intros P. unfold reset_particles, sz_particle. destruct has; [block|apply good_nil]. Qed.
Lemma good_if (b : bool) ms : good_block ms -> good_block (if b then ms else []).
Proof. destruct b; [auto|intros _; apply good_nil]. Qed.

Lemma good_op o h ms h' : all_sized h -> sized o -> run_cop o h = Ok (ms, h') -> good_block ms.
Proof.
  intros A Sz E. destruct o as [x b|x|x w|x|x num|t]; cbn [run_cop] in E.
  - destruct (lookup x h); [discriminate|]. destruct b as [n il|n p| |n]; cbn [construct] in E; injection E as <- <-; cbn in Sz.
    + apply (good_app (complex_grid n)); [|apply good_if]; apply good_complex, Sz.
    + apply good_if, good_complex, Sz.
    + apply good_nil.
    + unfold sz_complex. block.
  - destruct (lookup x h) as [ob|] eqn:L; [|discriminate]. injection E as <- <-. assert (P := all_sized_lookup _ _ _ A L).
    destruct ob as [n s w|n p al|n has|n]; cbn [destruct_obj sized_obj] in *.
    + apply (good_app (if negb (w =? -1) then free_real_grid n else [])); [apply good_if, good_free_real, P|].
      apply (good_app (free_complex_grid n)); [|apply good_if]; apply good_free_complex, P.
    + apply (good_app (if al then free_real_grid n else [])); apply good_if; [apply good_free_real|apply good_free_complex]; exact P.
    + apply good_reset, P.
    + unfold sz_complex. block.
  - destruct (lookup x h) as [[n s v| | |]|] eqn:L; try discriminate. assert (P := all_sized_lookup _ _ _ A L). unfold compute_window in E.
    destruct (v =? w); injection E as <- <-; [apply good_nil|]. apply good_if, good_real, P.
  - destruct (lookup x h) as [[ |n p al| |]|] eqn:L; try discriminate. assert (P := all_sized_lookup _ _ _ A L). unfold compute_alias in E.
    destruct al; injection E as <- <-; [apply good_nil|apply good_real, P].
  - destruct (lookup x h) as [[ | |n has|]|] eqn:L; try discriminate. unfold initialise_particles in E.
    destruct (num <=? 0) eqn:Q; [discriminate|]. apply Z.leb_gt in Q. cbn [bind fst snd] in E. injection E as <- <-.
    apply (good_app (reset_particles num has)); [apply good_reset; lia|]. unfold sz_particle. block.
  - injection E as <- <-. destruct t; cbn in Sz; unfold use_temp, sz_complex, sz_double, sz_int; block.
Qed.

(** The maxima are the largest values seen at any statement of the history. *)
Theorem maxima_running :
  forall c vs s', maxima_above c -> history (fun _ _ => True) (c, []) vs s' ->
  maxima_of c vs (fst s') /\ maxima_above (fst s').
Proof.
  intros c vs s' M H. remember (c, []) as s0 eqn:E0.
  assert (X : maxima_of c vs (fst s') /\ maxima_above (fst s') /\ all_sized (snd s')).
  2:{ tauto. }
  induction H as [|s vs [c1 h] o ws s'' H IH Sz _ E]; subst; cbn [fst snd] in *.
  - split; [repeat split|]. split; [exact M|constructor].
  - destruct (IH eq_refl) as [I1 [I2 I3]]. unfold run in E. cbn [fst snd] in E. destruct (run_cop o h) as [[ms h']|] eqn:R; [|discriminate].
    cbn [bind fst snd] in E. injection E as <- <-. cbn [fst snd].
    destruct (good_op o h ms h' I3 Sz R c1 I2) as [G1 G2].
    split; [exact (maxima_app _ _ _ _ _ I1 G1)|]. split; [exact G2|]. exact (run_cop_sized o h ms h' I3 Sz R).
Qed.

(** ** No counter is negative at any statement *)

(** A block with the running values it can lower the counters by at any point. *)
Fixpoint dips (ms : list micro) (r k g b : Z) : Prop :=
  match ms with
  | [] => True
  | AddR d :: ms => 0 <= r + d /\ dips ms (r + d) k g b
  | AddC d :: ms => 0 <= k + d /\ dips ms r (k + d) g b
  | AddG d :: ms => 0 <= g + d /\ dips ms r k (g + d) b
  | AddM d :: ms => 0 <= b + d /\ dips ms r k g (b + d)
  | _ :: ms => dips ms r k g b
  end.

Lemma dips_visited ms : forall c, nonneg c -> dips ms (rgrid c) (cgrid c) (grid2 c) (mem c) -> Forall nonneg (visited ms c).
Proof.
  induction ms as [|m ms IH]; intros c N D; [constructor|]. cbn [visited].
  assert (N' : nonneg (step m c)) by (destruct c, m; unfold nonneg in *; cbn in *; lia).
  constructor; [exact N'|]. apply IH; [exact N'|]. destruct c, m; cbn in *; tauto.
Qed.

(** Counters are never negative, at any statement, when no catalogue is reloaded with
    another size. *)
Lemma sum_over_cons f x o h : sum_over f ((x, o) :: h) = f o + sum_over f h. Proof. reflexivity. Qed.

Lemma lookup_bound f x o h : all_sized h -> (forall o, sized_obj o -> 0 <= f o) -> lookup x h = Some o -> f o <= sum_over f h.
Proof.
  intros A P. induction A as [|[y p] h Q A IH]; cbn; [discriminate|].
  assert (N := sum_nonneg f h A P). assert (P' := P p Q). destruct (Nat.eqb x y); [intros E; injection E as ->; lia|]. intros E. specialize (IH E). lia.
Qed.

Lemma complex_nonneg o : 0 <= complex_grids o.
Proof. destruct o as [n [|] w|n [|] al|n has|n]; cbn; lia. Qed.
Lemma real_nonneg o : 0 <= real_grids o.
Proof. destruct o as [n s w|n p [|]|n has|n]; cbn; try lia. destruct (negb (w =? -1)); cbn; lia. Qed.

(** What the counters must be given the heap. *)
Definition tally (c : counters) (h : heap) : Prop :=
  rgrid c = sum_over real_grids h /\ cgrid c = sum_over complex_grids h /\
  grid2 c = 2 * sum_over complex_grids h + sum_over real_grids h /\ mem c = sum_over bytes h.

Lemma op_dips o c h ms h' : all_sized h -> sized o -> fresh_load o h -> tally c h -> run_cop o h = Ok (ms, h') ->
  dips ms (rgrid c) (cgrid c) (grid2 c) (mem c).
Proof.
  intros A Sz F [Tr [Tc [Tg Tm]]] E. rewrite Tr, Tc, Tg, Tm.
  assert (Nr := sum_nonneg real_grids h A (fun o _ => real_nonneg o)). assert (Nc := sum_nonneg complex_grids h A (fun o _ => complex_nonneg o)).
  assert (Nb := sum_nonneg bytes h A bytes_nonneg).
  destruct o as [x b|x|x w|x|x num|t]; cbn [run_cop] in E.
  - destruct (lookup x h); [discriminate|]. destruct b as [n il|n p| |n]; cbn [construct] in E; injection E as <- <-; cbn in Sz;
      try destruct il; try destruct p; unfold complex_grid, sz_complex; cbn [app dips]; repeat split; lia.
  - destruct (lookup x h) as [ob|] eqn:L; [|discriminate]. injection E as <- <-. assert (P := all_sized_lookup _ _ _ A L).
    assert (Lr := lookup_bound real_grids x ob h A (fun o _ => real_nonneg o) L).
    assert (Lc := lookup_bound complex_grids x ob h A (fun o _ => complex_nonneg o) L).
    assert (Lb := lookup_bound bytes x ob h A bytes_nonneg L).
    clear Tr Tc Tg Tm F L. revert Lr Lc Lb Nr Nc Nb.
    generalize (sum_over real_grids h) (sum_over complex_grids h) (sum_over bytes h). intros SR SC SB Lr Lc Lb Nr Nc Nb.
    unfold bytes, complex_grids, real_grids, cells, particle_count in Lr, Lc, Lb.
    destruct ob as [n s w|n p al|n has|n]; cbn [destruct_obj sized_obj] in *;
      [destruct (negb (w =? -1)), s|destruct al, p|destruct has|]; cbn [b2z] in *;
      unfold free_real_grid, free_complex_grid, reset_particles, sz_complex, sz_double, sz_particle; cbn [app dips]; repeat split; lia.
  - destruct (lookup x h) as [[n s v| | |]|] eqn:L; try discriminate. assert (P := all_sized_lookup _ _ _ A L). unfold compute_window in E.
    cbn in P. destruct (v =? w); [|destruct (v =? -1)]; injection E as <- <-; unfold real_grid, sz_double; cbn [dips]; repeat split; lia.
  - destruct (lookup x h) as [[ |n p al| |]|] eqn:L; try discriminate. assert (P := all_sized_lookup _ _ _ A L). unfold compute_alias in E.
    cbn in P. destruct al; injection E as <- <-; unfold real_grid, sz_double; cbn [dips]; repeat split; lia.
  - destruct (lookup x h) as [[ | |n has|]|] eqn:L; try discriminate. unfold initialise_particles in E.
    destruct (num <=? 0) eqn:Q; [discriminate|]. apply Z.leb_gt in Q. cbn [bind fst snd] in E. injection E as <- <-.
    assert (Lb := lookup_bound bytes x _ h A bytes_nonneg L). assert (Fx : has = true -> n = num) by (intros ->; exact (F n L)).
    clear Tr Tc Tg Tm F L. revert Lb Nr Nc Nb.
    generalize (sum_over real_grids h) (sum_over complex_grids h) (sum_over bytes h). intros SR SC SB Lb Nr Nc Nb.
    unfold bytes, complex_grids, real_grids, cells, particle_count in Lb.
    destruct has; [specialize (Fx eq_refl); subst n|]; unfold reset_particles, sz_particle; cbn [app dips]; repeat split; lia.
  - injection E as <- <-. destruct t; cbn in Sz; unfold use_temp, sz_complex, sz_double, sz_int; cbn [dips]; repeat split; lia.
Qed.

Theorem counters_nonneg :
  forall vs s', history fresh_load start vs s' -> Forall nonneg vs /\ nonneg (fst s').
Proof.
  intros vs s' H.
  assert (X : Forall nonneg vs /\ all_sized (snd s') /\ tally (fst s') (snd s')).
  { remember start as s0 eqn:E0. induction H as [|s vs [c h] o ws s'' H IH Sz F E]; subst.
    - cbn. split; [constructor|]. split; [constructor|repeat split].
    - destruct (IH eq_refl) as [I1 [I2 I3]]. unfold run in E. cbn [fst snd] in *. destruct (run_cop o h) as [[ms h']|] eqn:R; [|discriminate].
      cbn [bind fst snd] in E. injection E as <- <-. cbn [fst snd]. assert (I3' := I3). destruct I3' as [Tr [Tc [Tg Tm]]].
      split; [|split].
      + apply Forall_app. split; [exact I1|]. apply dips_visited; [|exact (op_dips o c h ms h' I2 Sz F I3 R)].
        assert (Nr := sum_nonneg real_grids h I2 (fun o _ => real_nonneg o)). assert (Nc := sum_nonneg complex_grids h I2 (fun o _ => complex_nonneg o)).
        assert (Nb := sum_nonneg bytes h I2 bytes_nonneg). unfold nonneg. lia.
      + exact (run_cop_sized o h ms h' I2 Sz R).
      + assert (N := exec_net ms c). rewrite (op_effect o h ms h' Sz R), (fresh_drift o h F) in N. unfold tally. lia. }
  destruct X as [X1 [X2 [Tr [Tc [Tg Tm]]]]]. split; [exact X1|].
  assert (Nr := sum_nonneg real_grids _ X2 (fun o _ => real_nonneg o)). assert (Nc := sum_nonneg complex_grids _ X2 (fun o _ => complex_nonneg o)).
  assert (Nb := sum_nonneg bytes _ X2 bytes_nonneg). unfold nonneg. lia.
Qed.

(** ** Where it fails: reloading a catalogue *)

(** Ten particles replaced by four, then the catalogue destroyed: 336 bytes remain. *)
Theorem reload_leak_refuted :
  exists vs c', history (fun _ _ => True) start vs (c', []) /\ mem c' = 336.
Proof.
  eexists _, _. split.
  - assert (H0 := hist_nil (fun _ _ => True) start).
    assert (H1 := hist_op _ _ _ _ (Create 0 NewCat) _ _ H0 I I eq_refl).
    assert (H2 := hist_op _ _ _ _ (Load 0 10) _ _ H1 I I eq_refl).
    assert (H3 := hist_op _ _ _ _ (Load 0 4) _ _ H2 I I eq_refl).
    assert (H4 := hist_op _ _ _ _ (Destroy 0) _ _ H3 I I eq_refl).
    exact H4.
  - reflexivity.
Qed.

(** Four replaced by ten: the reported memory becomes negative. *)
Theorem reload_negative_refuted :
  exists vs c', history (fun _ _ => True) start vs (c', []) /\ mem c' = -336 /\ Exists (fun c => mem c < 0) vs.
Proof.
  eexists _, _. split; [|split].
  - assert (H0 := hist_nil (fun _ _ => True) start).
    assert (H1 := hist_op _ _ _ _ (Create 0 NewCat) _ _ H0 I I eq_refl).
    assert (H2 := hist_op _ _ _ _ (Load 0 4) _ _ H1 I I eq_refl).
    assert (H3 := hist_op _ _ _ _ (Load 0 10) _ _ H2 I I eq_refl).
    assert (H4 := hist_op _ _ _ _ (Destroy 0) _ _ H3 I I eq_refl).
    exact H4.
  - reflexivity.
  - cbn. do 2 apply Exists_cons_tl. apply Exists_cons_hd. vm_compute. reflexivity.
Qed.

(** Non-vacuity: two fields, one interlaced and one with a window, a catalogue and
    temporary weights, all destroyed again. *)
Fixpoint run_ops (os : list cop) (s : state) (vs : list counters) : res (list counters * state) :=
  match os with [] => Ok (vs, s) | o :: os => r <- run o s ;; run_ops os (snd r) (vs ++ fst r) end.
Fixpoint all_ok (ok : cop -> heap -> Prop) (os : list cop) (s : state) : Prop :=
  match os with
  | [] => True
  | o :: os => sized o /\ ok o (snd s) /\ match run o s with Ok r => all_ok ok os (snd r) | Err _ => True end
  end.

Lemma run_ops_history ok os : forall s0 vs s vs' s', history ok s0 vs s -> all_ok ok os s -> run_ops os s vs = Ok (vs', s') ->
  history ok s0 vs' s'.
Proof.
  induction os as [|o os IH]; intros s0 vs s vs' s' H A E; cbn in *.
  - injection E as <- <-. exact H.
  - destruct A as [A1 [A2 A3]]. destruct (run o s) as [[ws s1]|] eqn:R; [|discriminate]. cbn in *.
    apply (IH s0 (vs ++ ws) s1 vs' s'); [|exact A3|exact E]. exact (hist_op ok s0 vs s o ws s1 H A1 A2 R).
Qed.

Example counters_case :
  exists vs c', history fresh_load start vs (c', []) /\ cgrid c' = 0 /\ mem c' = 0 /\ max_cgrid c' = 3 /\ max_rgrid c' = 1 /\
    max_grid2 c' = 7 /\ max_mem c' = 608.
Proof.
  set (os := [Create 2 NewCat; Load 2 2; Create 0 (NewField 8 true); Create 1 (NewField 8 false); Window 1 2;
              Temp (TWeight 3); Destroy 0; Destroy 1; Destroy 2]).
  destruct (run_ops os start []) as [[vs s']|e] eqn:E; [|vm_compute in E; discriminate].
  assert (E' := E). vm_compute in E'. injection E' as Ev Es.
  exists vs, (fst s'). split.
  - replace (fst s', []) with s' by (rewrite <- Es; reflexivity).
    apply (run_ops_history fresh_load os start [] start vs s' (hist_nil _ _)); [|exact E].
    vm_compute. repeat split; intros; discriminate.
  - rewrite <- Es. repeat split.
Qed.

Print Assumptions grid_counters_exact.
Print Assumptions memory_exact.
Print Assumptions memory_drift.
Print Assumptions counters_return.
Print Assumptions maxima_running.
Print Assumptions counters_nonneg.
Print Assumptions reload_leak_refuted.
Print Assumptions reload_negative_refuted.
