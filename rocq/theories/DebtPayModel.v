(** Models of /repo/forecaster/strategy/debt_payment/base.py (DebtPaymentStrategy) and of how
    /repo/forecaster/strategy/transaction/base.py (TransactionTraversal) takes its arguments. *)
From Verif Require Import Base TxGraphModel TxStratModel.

(** ** The arguments of a traversal *)
(** transaction/base.py:137-150: what may be passed as [available]: a mapping of times to amounts, or
    (debt_payment/base.py:34-38) a single amount *)
Inductive avail : Type := AMap (d : dict Q Q) | AMoney (q : Q).
(** transaction/base.py:226-278 [__call__(available, total, assign_min, **kwargs)].  [total = None]: not
    given.  Unknown keyword arguments are swallowed by [**kwargs]; [assign_min] is never read. *)
Definition traversal_call (P : env) (fuel : nat) (root : tnode) (available : avail) (total : option Q) (assign_min : bool) : res (dict nat (dict Q Q)) :=
  let* t := match total with
            | Some t => Ok t
            | None => match available with AMap d => Ok (Qsum (dvals d)) | AMoney _ => Err AttributeError end
            end in
  call P fuel root t.

(** ** DebtPaymentStrategy *)
(** debt_payment/base.py:45-64 [_strategy_ordered]: a traversal of the list of debts.  The flag is passed
    on as the keyword [assign_min_first], which is not a parameter of [__call__]. *)
Definition strategy_ordered (P : env) (fuel : nat) (sorted_debts : list nat) (available : avail) (assign_minimums : bool) : res (dict nat (dict Q Q)) :=
  traversal_call P fuel (fst (mk_node (SSeq (map SAcct sorted_debts)) no_limits 0)) available None true.
(** debt_payment/base.py:66-82 the registered strategies, by key (an unknown key is refused with
    ValueError when the strategy is constructed, strategy/base.py:86-103) *)
Definition debt_payment (P : env) (fuel : nat) (w : aview) (key : string) (debts : list nat) (available : avail) : res (dict nat (dict Q Q)) :=
  if String.eqb key "Snowball" then strategy_ordered P fuel (snowball w debts) available true
  else if String.eqb key "Avalanche" then strategy_ordered P fuel (avalanche w debts) available true
  else Err ValueError.

(** ** The methods of a traversal *)
(** values that may be found in a LimitTuple of methods: None, a function of an account, or a tuple *)
Inductive pyv (A : Type) : Type := VNone | VFun (f : nat -> res A) | VTuple (t : lk -> pyv A).
Arguments VNone {A}. Arguments VFun {A} f. Arguments VTuple {A} t.
(** accounts/util.py:8-10 [LimitTuple(v)]: a namedtuple whose fields default to None, given one positional
    argument *)
Definition limit_tuple1 {A} (v : pyv A) : lk -> pyv A := fun k => match k with MinIn => v | _ => VNone end.
(** transaction/base.py:186-193 *)
Definition init_methods {A} (default : lk -> pyv A) (arg : pyv A) : lk -> pyv A :=
  match arg with VNone => default | v => limit_tuple1 v end.
(** transaction/util.py:205-208, 236-238: [getattr(methods, limit)(account)]; only functions are callable *)
Definition select {A} (m : lk -> pyv A) (k : lk) (a : nat) : res A := match m k with VFun f => f a | _ => Err TypeError end.
(** what the selected transaction method answers without a total (the sum of the transactions) and with one *)
Record txm : Type := { m_limit : res xnum; m_tx : Q -> res (dict Q Q) }.
(** a traversal's view of its accounts, given its methods.  The group method is called right after the
    account's limit was found (base.py:1151-1167), so an error in it is an error of the limit here.
    A group is identified by its set of members. *)
Definition env_of (tm : lk -> pyv txm) (gm : lk -> pyv (option nat)) (prec : Q)
    (flow : graph -> res (gnode -> gnode -> Z)) (hash : list tnode -> list tnode) : env := {|
  p_limit := fun k a => let* m := select tm k a in let* t := m_limit m in let* _ := select gm k a in Ok t;
  p_tx := fun k a q => let* m := select tm k a in m_tx m q;
  p_grp := fun k a => match select gm k a with Ok g => g | Err _ => None end;
  p_prec := prec; p_flow := flow; p_hash := hash |}.
