(** Model of an Account as a Ledger: its recorded properties (accounts/base.py:218-330, 835-838) read
    through the recorded_property machinery (LedgerModel), its attributes rate_callable, nper and
    _transactions (251-290, 332-344, 346-368) and its next_year (388-406).  Simplified: owner, limits and
    the properties inherited from TaxSource that Account leaves at 0 are elsewhere (PersonModel,
    AccountModel); times are already converted to numbers (rwhen_conv). *)
From Verif Require Import Base RBase GrowthModel AccountModel.
From Verif Require LedgerModel.
Import LedgerModel(Ret, Get, EnvRd, Year, PastAt, Raise, prog, lclass, lstate, with_env, getp, setter).
Open Scope R_scope.

(** values of recorded properties: a number, or a year's transactions *)
Inductive aval : Type := VNum (x : R) | VTx (d : dict R R).
Definition BALANCE : nat := 0. Definition RATE : nat := 1. Definition TRANSACTIONS : nat := 2.
Definition RETURNS : nat := 3. Definition TAXABLE : nat := 4.

(** the other attributes: what rate_callable answers by year ([None]: it raises), nper, _transactions *)
Record attrs : Type := { at_rate : Z -> option R; at_nper : option positive; at_txns : dict R R }.

(** what rate_callable's setter accepts (base.py:260-283) *)
Inductive rate_arg : Type := RateNum (q : R) | RateTable (d : dict Z R) | RateFun (f : Z -> option R).
Definition rate_callable (v : rate_arg) : Z -> option R :=
  match v with
  | RateNum q => fun _ => Some q
  | RateTable d => fun y => dget Z.eqb d y
  | RateFun f => f
  end.

(** a number or an exception further down (a dict where a number is expected) *)
Definition as_num (v : aval) (k : R -> prog aval attrs) : prog aval attrs := match v with VNum x => k x | VTx _ => Raise end.
Definition as_txs (v : aval) (k : dict R R -> prog aval attrs) : prog aval attrs := match v with VTx d => k d | VNum _ => Raise end.

(** base.py:218-249 *)
Definition balance_get : prog aval attrs :=
  PastAt BALANCE 1 (fun b => match b with
    | None => Raise                                            (* KeyError *)
    | Some b => as_num b (fun b => Get RATE (fun r => as_num r (fun r => EnvRd (fun e =>
        PastAt TRANSACTIONS 1 (fun t => match t with
          | None => Raise
          | Some t => as_txs t (fun t => Ret (VNum (value_at_time b r 0 1 (at_nper e) +
              Rsum (map (fun kv => value_at_time (snd kv) r (fst kv) 1 (at_nper e)) t))))
          end)))))
    end).
(** base.py:285-290 *)
Definition rate_get : prog aval attrs :=
  Year (fun y => EnvRd (fun e => match at_rate e y with Some r => Ret (VNum r) | None => Raise end)).
(** base.py:302-330 *)
Definition returns_get : prog aval attrs :=
  Get BALANCE (fun b => as_num b (fun b => Get RATE (fun r => as_num r (fun r => EnvRd (fun e =>
    Get TRANSACTIONS (fun t => as_txs t (fun t =>
      Ret (VNum (b * (accumulation_function 1 r (at_nper e) - 1) +
           Rsum (map (fun kv => snd kv * (accumulation_function (1 - fst kv) r (at_nper e) - 1)) t)))))))))).
Definition account_get (p : nat) : prog aval attrs :=
  match p with
  | 0%nat => balance_get
  | 1%nat => rate_get
  | 2%nat => EnvRd (fun e => Ret (VTx (at_txns e)))            (* base.py:292-300 *)
  | 3%nat => returns_get
  | 4%nat => Get RETURNS (fun r => as_num r (fun r => Ret (VNum (Rmax r 0))))   (* base.py:835-838 *)
  | _ => Raise
  end.
(** [order]: the order in which the set of recorded properties is iterated (ledger/base.py:100-109);
    [inputs]: the user's inputs.  balance and rate are cached. *)
Definition account_class (inputs : nat -> Z -> option aval) (order : list nat) : lclass aval attrs := {|
  LedgerModel.props := order;
  LedgerModel.cached := fun p => (p <? 2)%nat;
  LedgerModel.fget := account_get;
  LedgerModel.fset := fun _ => None; LedgerModel.fdel := fun _ => None;
  LedgerModel.inputs := inputs |}.

Definition aledger : Type := lstate aval attrs.
(** base.py:100-175: the constructor assigns the balance (168), the rate (169) and nper (170) *)
Definition new_account (inputs : nat -> Z -> option aval) (order : list nat) (y : Z) (balance : R) (rate : rate_arg) (nper : option positive) : aledger :=
  setter (account_class inputs order)
    (LedgerModel.init (account_class inputs order) y {| at_rate := rate_callable rate; at_nper := nper; at_txns := [] |})
    BALANCE (VNum balance).

(** what a user does to an account *)
Inductive aop : Type :=
| Read (p : nat)                        (* account.balance, account.rate, ... *)
| Put (t v : R)                         (* add_transaction(v, t), t in [0, 1]; base.py:346-368 *)
| Assign (b : R)                        (* account.balance = b *)
| SetRate (v : rate_arg)                (* account.rate_callable = v; base.py:260-283 *)
| SetNper (n : option positive)         (* account.nper = n; base.py:337-344 *)
| Advance.                              (* account.next_year(); base.py:388-406 *)
Definition depth : nat := 4.            (* property reads nest at most this deep *)
Definition set_rate (e : attrs) (v : rate_arg) : attrs := {| at_rate := rate_callable v; at_nper := at_nper e; at_txns := at_txns e |}.
Definition set_nper (e : attrs) (n : option positive) : attrs := {| at_rate := at_rate e; at_nper := n; at_txns := at_txns e |}.
Definition set_txns (e : attrs) (d : dict R R) : attrs := {| at_rate := at_rate e; at_nper := at_nper e; at_txns := d |}.
(** [None]: an exception.  (Simplified: base.py:368 adds to [self.transactions], which is
    [_transactions] unless the user gave this year's transactions as an input.) *)
Definition do (inputs : nat -> Z -> option aval) (order : list nat) (s : aledger) (o : aop) : option aledger :=
  let C := account_class inputs order in
  match o with
  | Read p => match getp C depth s p with Some (_, s') => Some s' | None => None end
  | Put t v => Some (with_env s (set_txns (LedgerModel.env s) (rincr (at_txns (LedgerModel.env s)) t v)))
  | Assign b => Some (setter C s BALANCE (VNum b))
  | SetRate v => Some (with_env s (set_rate (LedgerModel.env s) v))
  | SetNper n => Some (with_env s (set_nper (LedgerModel.env s) n))
  | Advance => match LedgerModel.next_year C depth s with
               | Some s' => Some (with_env s' (set_txns (LedgerModel.env s') []))
               | None => None
               end
  end.
Fixpoint do_all (inputs : nat -> Z -> option aval) (order : list nat) (s : aledger) (os : list aop) : option aledger :=
  match os with
  | [] => Some s
  | o :: r => match do inputs order s o with Some s' => do_all inputs order s' r | None => None end
  end.
