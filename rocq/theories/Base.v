(** Common definitions: Python exceptions as values, sums over Q, and Python
    dicts as insertion-ordered association lists.  This file models no
    particular /repo file; it models the Python built-ins the code uses. *)
From Coq Require Export QArith List Bool ZArith Lia Lqa.
From Coq Require Export String.
From Coq Require Import SetoidList Permutation.
Export ListNotations.
Open Scope Q_scope.
Open Scope list_scope.

(** Python exceptions the modelled code can raise. *)
Inductive err : Set :=
| ValueError | TypeError | KeyError | ZeroDivisionError
| AttributeError | NotImplementedError | IndexError | StopIteration
| RecursionError | NetworkXError | AssertionError
| OSError | OverflowError.

Inductive res (A : Type) : Type := Ok (a : A) | Err (e : err).
Arguments Ok {A} a. Arguments Err {A} e.

Definition bind {A B} (m : res A) (k : A -> res B) : res B :=
  match m with Ok a => k a | Err e => Err e end.
Notation "'let*' x ':=' m 'in' k" := (bind m (fun x => k))
  (at level 200, x pattern, right associativity).

(** [res] is [Ok] *)
Definition is_ok {A} (m : res A) : bool := match m with Ok _ => true | Err _ => false end.

(** Python's [sum] over numbers. *)
Fixpoint Qsum (l : list Q) : Q := match l with [] => 0 | x :: r => x + Qsum r end.

(** Python division: [ZeroDivisionError] on zero divisor. *)
Definition qdiv (a b : Q) : res Q :=
  if Qeq_bool b 0 then Err ZeroDivisionError else Ok (a / b).

(** strict comparison as a boolean *)
Definition Qlt_bool (a b : Q) : bool := negb (Qle_bool b a).
Definition qmin (a b : Q) : Q := if Qle_bool a b then a else b.
Definition qmax (a b : Q) : Q := if Qle_bool a b then b else a.
Definition qabs (a : Q) : Q := if Qle_bool 0 a then a else - a.

(** Python dicts: association lists in insertion order, at most one entry per
    key (up to the key equality [eqb]). *)
Section Dict.
  Context {K V : Type} (eqb : K -> K -> bool).

  Definition dict : Type := list (K * V).

  Fixpoint dget (d : list (K * V)) (k : K) : option V :=
    match d with
    | [] => None
    | (k', v) :: r => if eqb k k' then Some v else dget r k
    end.

  Definition dmem (d : list (K * V)) (k : K) : bool :=
    match dget d k with Some _ => true | None => false end.

  (** [d[k] = v]: overwrite in place, or append at the end. *)
  Fixpoint dset (d : list (K * V)) (k : K) (v : V) : list (K * V) :=
    match d with
    | [] => [(k, v)]
    | (k', v') :: r => if eqb k k' then (k', v) :: r else (k', v') :: dset r k v
    end.

  (** [del d[k]] / [d.pop(k, None)] *)
  Fixpoint ddel (d : list (K * V)) (k : K) : list (K * V) :=
    match d with
    | [] => []
    | (k', v') :: r => if eqb k k' then r else (k', v') :: ddel r k
    end.

  (** [d[k]] raising KeyError *)
  Definition dget_r (d : list (K * V)) (k : K) : res V :=
    match dget d k with Some v => Ok v | None => Err KeyError end.

  Definition dkeys (d : list (K * V)) : list K := map fst d.
  Definition dvals (d : list (K * V)) : list V := map snd d.

  (** well-formed: no key occurs twice *)
  Fixpoint dwf (d : list (K * V)) : Prop :=
    match d with
    | [] => True
    | (k, _) :: r => dget r k = None /\ dwf r
    end.
End Dict.
Arguments dict K V : clear implicits.

(** dicts keyed by numbers (times): Python numbers are equal as keys iff equal
    as numbers. *)
Definition qget (d : dict Q Q) (k : Q) : option Q := dget Qeq_bool d k.
(** value at a time, absent = 0 (the reading of a dict as a cash flow) *)
Definition qval (d : dict Q Q) (k : Q) : Q := match qget d k with Some v => v | None => 0 end.
