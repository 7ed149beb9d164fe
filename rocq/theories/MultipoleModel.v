(* Multipole indices of winconv.py: construction from strings, sequences and
   integers, printing, and the comparison methods that sorting relies on.
   /repo/src/triumvirate/winconv.py. *)
From Coq Require Import String Ascii.
From Coq Require Import ZArith List Lia Bool.
From Verif Require Import Base Dec PyParamModel.
Import ListNotations.
Local Open Scope string_scope.

(** `s.split(',')`: always at least one piece. *)
Fixpoint split_comma (s : string) : list string :=
  match s with
  | "" => [""]
  | String c r =>
      if Ascii.eqb c "," then "" :: split_comma r
      else match split_comma r with
           | [] => [String c ""]
           | p :: ps => String c p :: ps
           end
  end.

(** `int(piece)`: ValueError on anything but a decimal numeral.  (Surrounding
    blanks and underscores, which Python's int would take, are refused here.) *)
Definition int_piece (s : string) : res Z :=
  match int_of_str s with Some z => Ok z | None => Err ValueError end.

Fixpoint chars (s : string) : list string :=
  match s with
  | "" => []
  | String c r => String c "" :: chars r
  end.

(** The argument of the constructor: another multipole, a string, a sequence
    of integers or a bare integer (anything else is the ValueError of 249). *)
Inductive mlike :=
| MCopy (index : list Z)
| MStr (s : string)
| MSeq (l : list Z)
| MInt (z : Z)
| MOther.

(** `Multipole.__init__`, winconv.py 233-252; the value is `self.index`.  A
    string of one piece is iterated character by character.  The ValueError
    of `int` is not a TypeError and so is not caught. *)
Definition multipole (m : mlike) : res (list Z) :=
  match m with
  | MCopy idx => Ok idx
  | MStr s =>
      match split_comma s with
      | [p] => sequence (map int_piece (chars p))
      | ps => sequence (map int_piece ps)
      end
  | MSeq l => Ok l
  | MInt z => Ok [z]
  | MOther => Err ValueError
  end.

(** `self.abstr`, winconv.py 252. *)
Fixpoint abstr (idx : list Z) : string :=
  match idx with
  | [] => ""
  | z :: r => to_string z ++ abstr r
  end.

(** `Multipole.__str__`, winconv.py 257-258. *)
Fixpoint mstr (idx : list Z) : string :=
  match idx with
  | [] => ""
  | [z] => to_string z
  | z :: r => to_string z ++ "," ++ mstr r
  end.

(** `Multipole.__eq__`, winconv.py 263-266. *)
Fixpoint meq (a b : list Z) : bool :=
  match a, b with
  | [], [] => true
  | x :: a, y :: b => Z.eqb x y && meq a b
  | _, _ => false
  end.

(** `_iscomp`, winconv.py 307-325. *)
Definition iscomp (a b : list Z) : res unit :=
  if (List.length a =? List.length b)%nat then Ok tt else Err ValueError.

(** `index[-1]`; IndexError on an empty index. *)
Definition last_index (a : list Z) : res Z :=
  match rev a with [] => Err IndexError | z :: _ => Ok z end.

(** `index[:-2]`. *)
Definition but_two (a : list Z) : list Z := firstn (List.length a - 2) a.

(** The loop over `zip(self.index[:-2], other.index[:-2])` of `__lt__`,
    274-278. *)
Fixpoint zip_lt (a b : list Z) : bool :=
  match a, b with
  | x :: a, y :: b =>
      if Z.ltb x y then true
      else if Z.ltb y x then false
      else zip_lt a b
  | _, _ => false
  end.

(** The same loop of `__gt__`, 290-294. *)
Fixpoint zip_gt (a b : list Z) : bool :=
  match a, b with
  | x :: a, y :: b =>
      if Z.ltb y x then true
      else if Z.ltb x y then false
      else zip_gt a b
  | _, _ => false
  end.

(** `Multipole.__lt__`, winconv.py 268-280. *)
Definition mlt (a b : list Z) : res bool :=
  _ <- iscomp a b ;;
  la <- last_index a ;;
  lb <- last_index b ;;
  Ok (if Z.ltb la lb then true
      else if Z.ltb lb la then false
      else zip_lt (but_two a) (but_two b)).

(** `Multipole.__gt__`, winconv.py 282-294. *)
Definition mgt (a b : list Z) : res bool :=
  _ <- iscomp a b ;;
  la <- last_index a ;;
  lb <- last_index b ;;
  Ok (if Z.ltb lb la then true
      else if Z.ltb la lb then false
      else zip_gt (but_two a) (but_two b)).

(** `__le__` and `__ge__`, winconv.py 296-300. *)
Definition mle (a b : list Z) : res bool :=
  t <- mlt a b ;; Ok (t || meq a b).
Definition mge (a b : list Z) : res bool :=
  t <- mgt a b ;; Ok (t || meq a b).

(** `_issym`, winconv.py 327-336; an empty index raises IndexError. *)
Definition issym (a : list Z) : res bool :=
  match a with
  | [] => Err IndexError
  | [_] => Ok true
  | x :: y :: _ => Ok (Z.eqb x y)
  end.

(** `sorted(...)`, as used at winconv.py 734-752: the list sort of Python is
    stable and asks for `<` only, between members.  It is written here as an
    insertion sort, which leaves an element behind those it is tied with;
    MultipoleProps.v shows that every stable sort of such a list returns the
    same.  An element is compared with at least one other whenever there are
    two, so a list holding different lengths raises. *)
Fixpoint insert (x : list Z) (l : list (list Z)) : res (list (list Z)) :=
  match l with
  | [] => Ok [x]
  | y :: r =>
      t <- mlt y x ;;
      if t then (r' <- insert x r ;; Ok (y :: r')) else Ok (x :: y :: r)
  end.

Fixpoint msorted (l : list (list Z)) : res (list (list Z)) :=
  match l with
  | [] => Ok []
  | x :: r => s <- msorted r ;; insert x s
  end.
