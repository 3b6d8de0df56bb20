(** Model of an account used as a mapping of its transactions: accounts/base.py:844-884, with
    add_transaction (accounts/base.py:346-368), when_conv (utility/timing.py:381-420) and next_year's
    replacement of the transactions (accounts/base.py:402-406).  Not modelled: [get] (base.py:878-880), which
    passes dict.get a keyword argument it does not take and so always raises TypeError; keys(), values()
    and items(), which hand out the dict's own views. *)
From Verif Require Import Base.
From Verif Require Import TimingModel.

(** a key as the caller writes it: a number or a text *)
Inductive mkey : Type := KNum (q : Q) | KText (s : string).
Definition mkeqb (a b : mkey) : bool :=
  match a, b with KNum p, KNum q => Qeq_bool p q | KText s, KText t => String.eqb s t | _, _ => false end.
(** account._transactions: a defaultdict whose missing values are 0 *)
Definition flows : Type := list (mkey * Q).
(** timing.py:381-420; a text other than 'start' and 'end' is compared with a number: TypeError *)
Definition when_conv_key (k : mkey) : res Q :=
  match k with
  | KText s => if String.eqb s "end" then Ok 1 else if String.eqb s "start" then Ok 0 else Err TypeError
  | KNum q => if Qlt_bool 1 q || Qlt_bool q 0 then Err ValueError else Ok q
  end.
(** defaultdict's d[k]: the value, and the dict afterwards *)
Definition default_get (d : flows) (k : mkey) : Q * flows :=
  match dget mkeqb d k with Some v => (v, d) | None => (0, dset mkeqb d k 0) end.
(** base.py:346-368: self.transactions[when] += value *)
Definition add_flow (d : flows) (value : Q) (when : mkey) : res unit * flows :=
  match when_conv_key when with
  | Ok t => (Ok tt, dset mkeqb d (KNum t) (fst (default_get d (KNum t)) + value))
  | Err e => (Err e, d)
  end.
(** base.py:844-845 *)
Definition m_len (d : flows) : nat := Datatypes.length d.
(** Python's sorted() on keys: comparing a text with a number is a TypeError *)
Fixpoint text_insert (s : string) (l : list string) : list string :=
  match l with [] => [s] | x :: r => if String.leb s x then s :: l else x :: text_insert s r end.
Definition numbers_of (l : list mkey) : list Q := flat_map (fun k => match k with KNum q => [q] | _ => [] end) l.
Definition texts_of (l : list mkey) : list string := flat_map (fun k => match k with KText s => [s] | _ => [] end) l.
(** base.py:847-849: everything the iteration yields *)
Definition m_iter (d : flows) : res (list mkey) :=
  match numbers_of (dkeys d), texts_of (dkeys d) with
  | ns, [] => Ok (map KNum (qsort ns))
  | [], ts => Ok (map KText (fold_right text_insert [] ts))
  | _, _ => Err TypeError
  end.
(** base.py:851-853 *)
Definition m_contains (d : flows) (k : mkey) : res bool := let* t := when_conv_key k in Ok (dmem mkeqb d (KNum t)).
(** base.py:855-856 *)
Definition m_get (d : flows) (k : mkey) : Q * flows := default_get d k.
(** base.py:858-861 *)
Definition m_set (d : flows) (k : mkey) (v : Q) : res unit * flows :=
  add_flow (if dmem mkeqb d k then ddel mkeqb d k else d) v k.
(** base.py:863-864: defaultdict raises KeyError for a missing key *)
Definition m_del (d : flows) (k : mkey) : res unit * flows :=
  match dget mkeqb d k with Some _ => (Ok tt, ddel mkeqb d k) | None => (Err KeyError, d) end.
(** base.py:882-884, and the new year's empty transactions, base.py:406 *)
Definition m_clear (d : flows) : flows := [].

(** ** A history of uses *)
Inductive use : Type := Set_ (k : mkey) (v : Q) | Add (k : mkey) (v : Q) | Del (k : mkey) | Read (k : mkey) | Has (k : mkey) | Size | Times | Clear | NextYear.
(** what the caller sees *)
Inductive answer : Type := Done | Value (v : Q) | Truth (b : bool) | Count (n : nat) | Listed (l : list mkey) | Raised (e : err).
Definition of_unit (r : res unit) : answer := match r with Ok _ => Done | Err e => Raised e end.
Definition step (d : flows) (u : use) : answer * flows :=
  match u with
  | Set_ k v => let (r, d') := m_set d k v in (of_unit r, d')
  | Add k v => let (r, d') := add_flow d v k in (of_unit r, d')
  | Del k => let (r, d') := m_del d k in (of_unit r, d')
  | Read k => let (v, d') := m_get d k in (Value v, d')
  | Has k => (match m_contains d k with Ok b => Truth b | Err e => Raised e end, d)
  | Size => (Count (m_len d), d)
  | Times => (match m_iter d with Ok l => Listed l | Err e => Raised e end, d)
  | Clear => (Done, m_clear d)
  | NextYear => (Done, m_clear d)
  end.
Fixpoint uses (d : flows) (l : list use) : list answer * flows :=
  match l with [] => ([], d) | u :: r => let (a, d1) := step d u in let (as_, d2) := uses d1 r in (a :: as_, d2) end.
