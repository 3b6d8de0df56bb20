(** Model of TransactionDict (/repo/forecaster/forecast/subforecast.py:9-76), a defaultdict that takes unhashable keys by identity.
    Simplified: changing a stored value in place is writing the changed value; an object's id does not change and is not given to another
    key (the dict itself keeps its unhashable keys alive). *)
From Verif Require Import Base.
From Coq Require Import ZArith.
Open Scope Z_scope.

(** keys: accounts (hashed by identity), plain dicts (not hashable), integers *)
Inductive key : Type := Acct (n : nat) | Plain (n : nat) | Int (z : Z).
Definition key_eqb (a b : key) : bool :=
  match a, b with Acct n, Acct m => Nat.eqb n m | Plain n, Plain m => Nat.eqb n m | Int x, Int y => Z.eqb x y | _, _ => false end.
(** subforecast.py:44, 54 [isinstance(key, Hashable)] *)
Definition hashable (k : key) : bool := match k with Plain _ => false | _ => true end.

Section TransactionDict.
  Variable id : nat -> Z.              (* id() of a plain dict *)
  Variable V : Type.
  Variable default : V.                (* what default_factory() makes *)
  (** the underlying dict has hashable keys only; [t_unhashable]: self._unhashablekeys, by id *)
  Record tdict : Type := { t_items : list (key * V); t_unhashable : list (Z * nat) }.
  (** subforecast.py:37-40 *)
  Definition new : tdict := {| t_items := []; t_unhashable := [] |}.
  (** defaultdict.__getitem__ with __missing__ *)
  Definition base_get (l : list (key * V)) (k : key) : V * list (key * V) :=
    match dget key_eqb l k with Some v => (v, l) | None => (default, dset key_eqb l k default) end.
  (** subforecast.py:46-47, 55-56 *)
  Definition remember (l : list (Z * nat)) (n : nat) : list (Z * nat) := if dmem Z.eqb l (id n) then l else dset Z.eqb l (id n) n.
  (** subforecast.py:42-50 *)
  Definition getitem (d : tdict) (k : key) : V * tdict :=
    match k with
    | Plain n => let (v, l) := base_get (t_items d) (Int (id n)) in (v, {| t_items := l; t_unhashable := remember (t_unhashable d) n |})
    | _ => let (v, l) := base_get (t_items d) k in (v, {| t_items := l; t_unhashable := t_unhashable d |})
    end.
  (** subforecast.py:52-59 *)
  Definition setitem (d : tdict) (k : key) (v : V) : tdict :=
    match k with
    | Plain n => {| t_items := dset key_eqb (t_items d) (Int (id n)) v; t_unhashable := remember (t_unhashable d) n |}
    | _ => {| t_items := dset key_eqb (t_items d) k v; t_unhashable := t_unhashable d |}
    end.
  (** subforecast.py:63-67: the object for a key of the underlying dict *)
  Definition translate (d : tdict) (k : key) : key :=
    match k with Int z => match dget Z.eqb (t_unhashable d) z with Some n => Plain n | None => k end | _ => k end.
  (** subforecast.py:61-67 *)
  Definition iter (d : tdict) : list key := map (translate d) (dkeys (t_items d)).
  (** [sorted]: only integers can be compared with each other *)
  Definition comparable (a b : key) : bool := match a, b with Int _, Int _ => true | _, _ => false end.
  Fixpoint insert (z : key) (l : list key) : list key :=
    match l with [] => [z] | x :: r => if match z, x with Int a, Int b => a <=? b | _, _ => true end then z :: x :: r else x :: insert z r end.
  Definition sorted (l : list key) : res (list key) :=
    match l with
    | [] | [_] => Ok l
    | k :: _ => if forallb (comparable k) l then Ok (fold_right insert [] l) else Err TypeError
    end.
  (** subforecast.py:69-76 *)
  Definition keys (d : tdict) : res (list key) := sorted (iter d).
  (** inherited from defaultdict: clear (subforecast.py:173), in, get, del, items, len *)
  Definition clear (d : tdict) : tdict := {| t_items := []; t_unhashable := t_unhashable d |}.
  Definition contains (d : tdict) (k : key) : res bool := if hashable k then Ok (dmem key_eqb (t_items d) k) else Err TypeError.
  Definition get (d : tdict) (k : key) : res (option V) := if hashable k then Ok (dget key_eqb (t_items d) k) else Err TypeError.
  Definition delitem (d : tdict) (k : key) : res tdict :=
    if hashable k then if dmem key_eqb (t_items d) k then Ok {| t_items := ddel key_eqb (t_items d) k; t_unhashable := t_unhashable d |} else Err KeyError
    else Err TypeError.
  Definition items (d : tdict) : list (key * V) := t_items d.
End TransactionDict.
Arguments t_items {V}. Arguments t_unhashable {V}.
