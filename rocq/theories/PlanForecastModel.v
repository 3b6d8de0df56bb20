(** The sub-forecasts with the shipped strategies: saving.py, withdrawal.py, strategy/transaction/strategy.py. *)
From Verif Require Import Base TxStratModel TxGraphModel DebtPayModel SubModel ForecastsModel HorizonModel.
From Verif Require Import Prop_TxLead.

(** A TransactionStrategy with the accounts a sub-forecast passes to it (saving.py:52-54: retirement
    accounts and debts; withdrawal.py:60-61: self.accounts), what it reads of each account
    (class, debt, balance, rate) and the world its traversal reads (TxGraphModel.env), both of which depend
    on the accounts' transactions so far this year (the heap) and on the rest of the household.
    [pl_fuel]: the interpreter's recursion limit. *)
Record planner (X : Type) : Type := {
  pl_strat : tstrat; pl_accounts : list nat; pl_fuel : nat;
  pl_view : X -> heap -> aview; pl_env : X -> heap -> TxGraphModel.env }.
Arguments pl_strat {X}. Arguments pl_accounts {X}. Arguments pl_fuel {X}. Arguments pl_view {X}. Arguments pl_env {X}.
(** strategy.py:305-338 [TransactionStrategy.__call__(available, accounts)]; `available` (object 0) is a
    mapping, and no total is given (line 338) *)
Definition plan_for {X} (p : planner X) (x : X) (h : heap) : res plan :=
  let* t := priority_tree (pl_strat p) (pl_view p x h) (pl_accounts p) in
  traversal_call (pl_env p x h) (pl_fuel p) (fst (mk_node (tree_src t) no_limits 0)) (AMap (hget h 0)) None true.
(** a forecast whose saving and withdrawal strategies are TransactionStrategies (forecaster.py:242-283) *)
Definition with_strategies {X} (c : config X) (save draw : planner X) : config X := {|
  c_kinds := c_kinds c; c_default := c_default c; c_living := c_living c;
  c_save := plan_for save; c_withdraw := plan_for draw;
  c_wh := c_wh c; c_owing := c_owing c; c_refund := c_refund c; c_pay := c_pay c; c_next := c_next c |}.
