(* Model of the resource counters of /repo/src/triumvirate/src/monitor.cpp and of the
   places in field.cpp, particles.cpp, twopt.cpp and threept.cpp that change them.
   [gbytesMem] is kept in bytes: every change is a whole number of bytes over 2^30, so
   its binary64 arithmetic is exact below 2^53 bytes.  [count_grid] is kept in halves.
   GPU memory is not modelled; memory the code does not account for is not either. *)
From Coq Require Import ZArith List Lia Bool.
From Verif Require Import Base.
Import ListNotations.
Open Scope Z_scope.

(** monitor.cpp 92-105 *)
Record counters : Set := Counters
  { rgrid : Z; cgrid : Z; grid2 : Z; mem : Z;
    max_rgrid : Z; max_cgrid : Z; max_grid2 : Z; max_mem : Z }.

Definition counters0 : counters := Counters 0 0 0 0 0 0 0 0.

(** Single statements. *)
Inductive micro : Set :=
| AddR (d : Z)      (* count_rgrid += d *)
| AddC (d : Z)      (* count_cgrid += d *)
| AddG (d : Z)      (* count_grid += d / 2 *)
| AddM (d : Z)      (* gbytesMem += d bytes *)
| UpdGrid           (* update_maxcntgrid(), monitor.cpp 175-187 *)
| UpdMem.           (* update_maxmem(), monitor.cpp 163-173 *)

Definition step (m : micro) (c : counters) : counters :=
  match c with
  | Counters r k g b mr mk mg mb =>
      match m with
      | AddR d => Counters (r + d) k g b mr mk mg mb
      | AddC d => Counters r (k + d) g b mr mk mg mb
      | AddG d => Counters r k (g + d) b mr mk mg mb
      | AddM d => Counters r k g (b + d) mr mk mg mb
      | UpdGrid => Counters r k g b (if mr <? r then r else mr) (if mk <? k then k else mk)
                            (if mg <? g then g else mg) mb
      | UpdMem => Counters r k g b mr mk mg (if mb <? b then b else mb)
      end
  end.

(** The states after each statement, in order. *)
Fixpoint visited (ms : list micro) (c : counters) : list counters :=
  match ms with [] => [] | m :: ms => step m c :: visited ms (step m c) end.
Fixpoint exec (ms : list micro) (c : counters) : counters :=
  match ms with [] => c | m :: ms => exec ms (step m c) end.

(** [sizeof]: fftw_complex and std::complex<double>, double, int, ParticleData
    (particles.hpp 63-69: seven doubles). *)
Definition sz_complex := 16.
Definition sz_double := 8.
Definition sz_int := 4.
Definition sz_particle := 56.

(** Live objects. *)
Inductive obj : Set :=
| Field (nmesh : Z) (shadow : bool) (window_order : Z)   (* MeshField *)
| Stats (nmesh : Z) (plan_ini alias_ini : bool)          (* FieldStats *)
| Cat (ntotal : Z) (has_pdata : bool)                    (* ParticleCatalogue *)
| Scratch (nmesh : Z).                                   (* the four ylm arrays, threept.cpp 342-351 *)

Definition complex_grid (n : Z) : list micro :=
  [AddC 1; AddG 2; UpdGrid; AddM (sz_complex * n); UpdMem].
Definition free_complex_grid (n : Z) : list micro :=
  [AddC (-1); AddG (-2); AddM (- (sz_complex * n))].
Definition real_grid (n : Z) : list micro :=
  [AddR 1; AddG 1; UpdGrid; AddM (sz_double * n); UpdMem].
Definition free_real_grid (n : Z) : list micro :=
  [AddR (-1); AddG (-1); AddM (- (sz_double * n))].

(** Constructors: field.cpp 56-79 (and 391-407), 2096-2113, particles.cpp 39-43,
    threept.cpp 342-351. *)
Inductive birth : Set :=
| NewField (nmesh : Z) (interlace : bool)
| NewStats (nmesh : Z) (plan_ini : bool)
| NewCat
| NewScratch (nmesh : Z).

Definition construct (b : birth) : list micro * obj :=
  match b with
  | NewField n il => (complex_grid n ++ (if il then complex_grid n else []), Field n il (-1))
  | NewStats n p => ((if p then complex_grid n else []), Stats n p false)
  | NewCat => ([], Cat 0 false)
  | NewScratch n => ([AddC 4; AddG 8; UpdGrid; AddM (sz_complex * (4 * n)); UpdMem], Scratch n)
  end.

(** particles.cpp 72-78 ([reset_particles]) *)
Definition reset_particles (ntotal : Z) (has : bool) : list micro :=
  if has then [AddM (- (sz_particle * ntotal))] else [].

(** Destructors: field.cpp 478-497, 2193-2246, particles.cpp 45, threept.cpp 1000-1003. *)
Definition destruct_obj (o : obj) : list micro :=
  match o with
  | Field n shadow w =>
      (if negb (w =? -1) then free_real_grid n else []) ++
      free_complex_grid n ++ (if shadow then free_complex_grid n else [])
  | Stats n p al =>
      (if al then free_real_grid n else []) ++ (if p then free_complex_grid n else [])
  | Cat n has => reset_particles n has
  | Scratch n => [AddC (-4); AddG (-8); AddM (- (sz_complex * (4 * n)))]
  end.

(** field.cpp 1165-1201 ([compute_assignment_window_in_fourier]) *)
Definition compute_window (order : Z) (n : Z) (shadow : bool) (w : Z) : list micro * obj :=
  if w =? order then ([], Field n shadow w)
  else ((if w =? -1 then real_grid n else []), Field n shadow order).

(** field.cpp 3529-3564 ([compute_shotnoise_aliasing]) *)
Definition compute_alias (n : Z) (p al : bool) : list micro * obj :=
  if al then ([], Stats n p al) else (real_grid n, Stats n p true).

(** particles.cpp 47-66 ([initialise_particles]): [ntotal] is overwritten before the
    old data are released. *)
Definition initialise_particles (num ntotal : Z) (has : bool) : res (list micro * obj) :=
  if num <=? 0 then Err InvalidParameter
  else let ntotal := num in
       Ok (reset_particles ntotal has ++ [AddM (sz_particle * ntotal); UpdMem], Cat ntotal true).

(** Temporary arrays: one weight array (field.cpp 1209-1226 and the like), two of them
    (twopt.cpp 168-170 and 202-203), the binned vectors (field.cpp 2447-2501). *)
Inductive temp : Set := TWeight (n : Z) | TWeights (n m : Z) | TVectors (count : Z).
Definition use_temp (t : temp) : list micro :=
  match t with
  | TWeight n => [AddM (sz_complex * n); UpdMem; AddM (- (sz_complex * n))]
  | TWeights n m => [AddM (sz_complex * n); AddM (sz_complex * m); UpdMem;
                     AddM (- (sz_complex * n)); AddM (- (sz_complex * m))]
  | TVectors k => [AddM (sz_double * (6 * k)); UpdMem; AddM (sz_double * (6 * k)); UpdMem;
                   AddM (sz_int * k); UpdMem;
                   AddM (- (sz_double * (2 * 6 * k))); AddM (- (sz_int * k))]
  end.

(** ** Program state: counters and live objects by name *)
Definition heap := list (nat * obj).
Fixpoint lookup (x : nat) (h : heap) : option obj :=
  match h with [] => None | (y, o) :: h => if Nat.eqb x y then Some o else lookup x h end.
Fixpoint remove (x : nat) (h : heap) : heap :=
  match h with [] => [] | (y, o) :: h => if Nat.eqb x y then h else (y, o) :: remove x h end.
Fixpoint replace (x : nat) (o : obj) (h : heap) : heap :=
  match h with [] => [] | (y, o') :: h => if Nat.eqb x y then (y, o) :: h else (y, o') :: replace x o h end.

Inductive cop : Set :=
| Create (x : nat) (b : birth)
| Destroy (x : nat)
| Window (x : nat) (order : Z)
| Alias (x : nat)
| Load (x : nat) (num : Z)
| Temp (t : temp).

Definition state := (counters * heap)%type.

(** One operation: the statements it executes and the heap after it. *)
Definition run_cop (o : cop) (h : heap) : res (list micro * heap) :=
  match o with
  | Create x b => match lookup x h with
                  | Some _ => Err InvalidParameter
                  | None => let '(ms, ob) := construct b in Ok (ms, (x, ob) :: h)
                  end
  | Destroy x => match lookup x h with
                 | Some ob => Ok (destruct_obj ob, remove x h)
                 | None => Err InvalidParameter
                 end
  | Window x order => match lookup x h with
                      | Some (Field n s w) => let '(ms, ob) := compute_window order n s w in Ok (ms, replace x ob h)
                      | _ => Err InvalidParameter
                      end
  | Alias x => match lookup x h with
               | Some (Stats n p al) => let '(ms, ob) := compute_alias n p al in Ok (ms, replace x ob h)
               | _ => Err InvalidParameter
               end
  | Load x num => match lookup x h with
                  | Some (Cat n has) => r <- initialise_particles num n has ;;
                                        Ok (fst r, replace x (snd r) h)
                  | _ => Err InvalidParameter
                  end
  | Temp t => Ok (use_temp t, h)
  end.

Definition run (o : cop) (s : state) : res (list counters * state) :=
  r <- run_cop o (snd s) ;;
  Ok (visited (fst r) (fst s), (exec (fst r) (fst s), snd r)).
