(* Parameters of a measurement put together from a parameter set, sampling
   overrides and measurement arguments: src/triumvirate/parameters.pyx
   fetch_paramset_template 613-666, src/triumvirate/twopt.py
   _amalgamate_parameters 59-155, src/triumvirate/threept.py
   _amalgamate_parameters 53-193, and the template
   src/triumvirate/resources/params_template.yml.

   Simplifications.  The template is the dictionary the YAML file stands for
   (`off` and `false` load as booleans).  A binning argument is given by its
   two limits and bin number; degrees, orders and bin index are integers. *)
From Coq Require Import String List ZArith Reals Bool.
From Verif Require Import Base ParamModel PyParamModel.
Import ListNotations.
Local Open Scope string_scope.

(** params_template.yml 12-160. *)
Definition unset_axes : pyval := VDict [("x", VNone); ("y", VNone); ("z", VNone)].

Definition template : dict :=
  [("directories", VDict [("catalogues", VNone); ("measurements", VNone)]);
   ("files", VDict [("data_catalogue", VNone); ("rand_catalogue", VNone)]);
   ("catalogue_columns", VList []);
   ("catalogue_dataset", VNone);
   ("tags", VDict [("output", VNone)]);
   ("boxsize", unset_axes);
   ("ngrid", unset_axes);
   ("expand", VNum 1);
   ("cutoff_nyq", VNone);
   ("alignment", VStr "centre");
   ("padscale", VStr "box");
   ("padfactor", VNone);
   ("assignment", VStr "tsc");
   ("interlace", VBool false);
   ("catalogue_type", VNone);
   ("statistic_type", VNone);
   ("degrees", VDict [("ell1", VNone); ("ell2", VNone); ("ELL", VNone)]);
   ("wa_orders", VDict [("i", VNone); ("j", VNone)]);
   ("form", VStr "diag");
   ("norm_convention", VStr "particle");
   ("binning", VStr "lin");
   ("range", VList [VNone; VNone]);
   ("num_bins", VNone);
   ("idx_bin", VNone);
   ("fftw_scheme", VStr "measure");
   ("use_fftw_wisdom", VBool false);
   ("save_binned_vectors", VBool false);
   ("verbose", VInt 20);
   ("progbar", VBool false)].

(** parameters.pyx 653-658. *)
Definition defaults_of (d : dict) : dict :=
  filter (fun kv => match snd kv with
                    | VNone | VList _ | VDict _ => false
                    | _ => true
                    end) d.

(** The measurement arguments; two-point statistics take [degrees] as the
    single degree ELL and neither orders, form nor bin index. *)
Record margs := {
  m_degrees : option (Z * Z * Z);
  m_degree : option Z;
  m_orders : option (Z * Z);
  m_binning : option (R * R * Z);
  m_form : option string;
  m_idx : option Z
}.

(** twopt.py 124-135, threept.py 153-175. *)
Definition measure_dict (a : margs) : dict :=
  (match m_degree a with Some l => [("ELL", VInt l)] | None => [] end)
  ++ (match m_degrees a with
      | Some (l1, l2, l) => [("ell1", VInt l1); ("ell2", VInt l2); ("ELL", VInt l)]
      | None => []
      end)
  ++ (match m_orders a with
      | Some (i, j) => [("i_wa", VInt i); ("j_wa", VInt j)]
      | None => []
      end)
  ++ (match m_binning a with
      | Some (lo, hi, n) =>
          [("bin_min", VNum lo); ("bin_max", VNum hi); ("num_bins", VInt n)]
      | None => []
      end)
  ++ (match m_form a with Some f => [("form", VStr f)] | None => [] end)
  ++ (match m_idx a with Some i => [("idx_bin", VInt i)] | None => [] end).

(** twopt.py 105-113: arguments needed without a parameter set. *)
Definition enough_2pt (u : option dict) (a : margs) : bool :=
  match u, m_degree a, m_binning a with Some _, Some _, Some _ => true | _, _, _ => false end.

(** threept.py 127-142. *)
Definition enough_3pt (u : option dict) (a : margs) : bool :=
  match u, m_degrees a, m_binning a, m_form a with
  | Some _, Some _, Some _, Some f =>
      negb (((f =? "row") || (f =? "off-diag"))
            && match m_idx a with None => true | Some _ => false end)
  | _, _, _, _ => false
  end.

(** The two overrides in turn (twopt.py 121-140, threept.py 150-180). *)
Definition overrides {S} (L : dictlike S) (u : option dict) (a : margs)
  (s : S) (df : option dict) : run S :=
  andthen (modify_sampling L u s df) (fun s df =>
  modify_measurement L (Some (measure_dict a)) s df).

(** Without a parameter set: the template as a plain dictionary; the result
    is the dictionary and the defaults warned about. *)
Definition amalgamate_new (enough : option dict -> margs -> bool)
  (u : option dict) (a : margs) (types : dict) : res (dict * option dict) :=
  if enough u a then
    match overrides plain u a template (Some (defaults_of template)) with
    | (d, df, Ok tt) => Ok (dupdate types d, df)
    | (_, _, Err x) => Err x
    end
  else Err ValueError.

(** Measurements then construct the parameter set (twopt.py 408-409). *)
Definition measure_new (fuel : nat) (e : pyenv) (enough : option dict -> margs -> bool)
  (u : option dict) (a : margs) (types : dict) : res outcome :=
  r <- amalgamate_new enough u a types ;;
  Ok (construct fuel e (fst r)).

(** With a parameter set: the caller's object, which is modified in place. *)
Definition amalgamate_set (fuel : nat) (e : pyenv)
  (u : option dict) (a : margs) (types : dict) (o : outcome) : outcome * res unit :=
  match overrides (pset_like fuel e) u a o None with
  | (o, _, Ok tt) =>
      match o with
      | (d, Ok (q, pb)) =>
          let o' := update fuel e types {| entries := d; cpp := q; bar := pb |} in
          (o', match snd o' with Ok _ => Ok tt | Err x => Err x end)
      | (d, Err x) => (o, Err x)
      end
  | (o, _, Err x) => (o, Err x)
  end.
