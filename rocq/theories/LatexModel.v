(* Formulae printed as LaTeX: `WinConvTerm.get_latex_str` and
   `WinConvFormulae.get_latex_expr`.
   /repo/src/triumvirate/winconv.py 569-616 and 792-820. *)
From Coq Require Import String Ascii.
From Coq Require Import ZArith QArith Qabs List Bool.
From Verif Require Import Base Dec PyLogModel MultipoleModel.
Import ListNotations.
Local Open Scope string_scope.

(** `index_Z`: the degrees of a multipole or the pseudo-index 'ic', which is
    kept as it is (538-543). *)
Inductive zindex := Degrees (l : list Z) | Special (s : string).

(** A term whose coefficient is an integer or a fraction.  (Fractions are kept
    in lowest terms; floating-point numbers and symbolic coefficients are left
    out.) *)
Record term := mk_term { t_Q : list Z; t_Z : zindex; t_coeff : Q }.

(** `''.join(map(str, index))`, 598-599; over a string it joins characters. *)
Definition joined (i : zindex) : string :=
  match i with Degrees l => abstr l | Special s => s end.

(** `s.isdigit()` for ASCII. *)
Fixpoint digits_only (s : string) : bool :=
  match s with
  | "" => true
  | String c r => match digit_value c with Some _ => digits_only r | None => false end
  end.
Definition isdigit (s : string) : bool := negb (s =? "") && digits_only s.

(** 601-608. *)
Definition index_text (s : string) : string :=
  if isdigit s then "{" ++ s ++ "}" else "\mathrm{" ++ s ++ "}".

(** `latex(sympify(c))` of a positive integer or fraction. *)
Definition latex (c : Q) : string :=
  if Pos.eqb (Qden c) 1 then to_string (Qnum c)
  else "\frac{" ++ to_string (Qnum c) ++ "}{" ++ to_string (Z.pos (Qden c)) ++ "}".

(** 586-596. *)
Definition coeff_text (c : Q) : string :=
  let sgn_str := if (Qnum c <? 0)%Z then "-" else "" in
  let coeff_str := if Qeq_bool (Qabs c) 1 then "" else latex (Qabs c) in
  strip (sgn_str ++ " " ++ coeff_str).

(** `get_latex_str`, 583-614. *)
Definition term_latex (symbol : string) (t : term) : string :=
  if Qeq_bool (t_coeff t) 0 then ""
  else strip (coeff_text (t_coeff t) ++ " Q_" ++ index_text (abstr (t_Q t)) ++ " "
              ++ symbol ++ "_" ++ index_text (joined (t_Z t))).

(** `get_latex_expr`, 810-820; [idx] is the position in the formula. *)
Fixpoint terms_latex (symbol : string) (idx : nat) (ts : list term) : list string :=
  match ts with
  | [] => []
  | t :: r =>
      let term_str := term_latex symbol t in
      if term_str =? "" then terms_latex symbol (S idx) r
      else
        let term_str := if (0 <? idx)%nat && negb (prefix "-" term_str)
                        then "+" ++ " " ++ term_str else term_str in
        strip term_str :: terms_latex symbol (S idx) r
  end.

Definition expr_latex (symbol : string) (ts : list term) : string :=
  String.concat " " (terms_latex symbol 0 ts).
