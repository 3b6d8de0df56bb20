(** Models of the sub-forecasts: /repo/forecaster/forecast/{income,living_expenses,saving,withdrawal,tax}.py.
    What each does after the common start of a call ([SubModel.call]) is a [prog]. *)
From Verif Require Import Base TimingModel SubModel.

(** what the sub-forecasts read of a Person (person.py:115-160, 340-350, 415-440): gross income, tax
    withheld, payment timing (a Timing), accounts, year of retirement *)
Record person : Type := {
  p_gross : Q; p_withheld : Q; p_timing : dict Q Q; p_accts : list nat; p_retire : option Z }.
(** person.py:340-350: net income is gross income less tax withheld *)
Definition p_net (p : person) : Q := p_gross p - p_withheld p.

(** ** Income *)
(** income.py:57-62 *)
Fixpoint pay_each (people : list person) (avail : nat) : prog :=
  match people with
  | [] => Done
  | p :: r => Do (p_net p) (TObj (p_timing p)) None (Some avail) false (fun _ => pay_each r avail)
  end.
(** income.py:44-62; asset_sale is zero (lines 64-68) *)
Definition income_body (people : list person) (avail : nat) : heap -> prog :=
  fun _ => Do 0 TDefault None (Some avail) false (fun _ => pay_each people avail).
(** income.py:82-101 *)
Definition gross_income (people : list person) : Q := Qsum (map p_gross people).
Definition income_withheld (people : list person) : Q := Qsum (map p_withheld people).
Definition net_income (people : list person) : Q := Qsum (map p_net people).

(** ** Living expenses *)
(** Python [min] over years *)
Fixpoint zminl (l : list Z) : res Z :=
  match l with [] => Err ValueError | [x] => Ok x | x :: r => let* m := zminl r in Ok (Z.min x m) end.
(** living_expenses.py:60-72; [strategy] is the living-expenses strategy's call *)
Definition living_expenses (strategy : Z -> list person -> Z -> res Q) (year : Z) (people : list person) : res Q :=
  let* ys := fold_right (fun p r => let* l := r in match p_retire p with Some y => Ok (y :: l) | None => Err AttributeError end) (Ok []) people in
  let* ry := zminl ys in strategy year people ry.
(** living_expenses.py:54-58 *)
Fixpoint spend_each (living total : Q) (people : list person) (avail : nat) : prog :=
  match people with
  | [] => Done
  | p :: r => Do (living * (p_net p / total)) (TObj (p_timing p)) (Some avail) None false (fun _ => spend_each living total r avail)
  end.
(** living_expenses.py:41-58; the weights are all computed (line 52) before living_expenses is first
    read (line 56) *)
Definition living_body (living : res Q) (people : list person) (avail : nat) : heap -> prog :=
  fun _ => match people with
           | [] => Done
           | _ => if Qeq_bool (net_income people) 0 then Fail ZeroDivisionError
                  else match living with Err e => Fail e | Ok l => spend_each l (net_income people) people avail end
           end.

(** ** Saving *)
(** what a transaction strategy returns: account -> (time -> value); the dict's order *)
Definition plan : Type := list (nat * dict Q Q).
(** subforecast.py:243-247 as used by saving.py:60-63 and withdrawal.py:78-80, 121-122 *)
Fixpoint move_each (l : dict Q Q) (from to : option nat) (k : heap -> prog) (h : heap) : prog :=
  match l with
  | [] => k h
  | (w, v) :: r => Do v (TArg (WNum w)) from to false (fun h => move_each r from to k h)
  end.
(** saving.py:59-63 *)
Fixpoint save_each (pl : plan) (avail : nat) (h : heap) : prog :=
  match pl with
  | [] => Done
  | (a, l) :: r => move_each l (Some avail) (Some a) (save_each r avail) h
  end.
(** saving.py:46-63; [strategy] is handed `available` and the accounts, i.e. the heap *)
Definition saving_body (strategy : heap -> res plan) (avail : nat) : heap -> prog :=
  fun h => match strategy h with Err e => Fail e | Ok pl => save_each pl avail h end.
Definition planned (pl : plan) (a : nat) : dict Q Q := match dget Nat.eqb pl a with Some l => l | None => [] end.
(** saving.py:70-87: both properties sum over [self.retirement_accounts] *)
Definition retirement_savings (pl : plan) (retirement : list nat) : Q := Qsum (map (fun a => Qsum (dvals (planned pl a))) retirement).
Definition debt_repayment (pl : plan) (retirement debts : list nat) : Q := Qsum (map (fun a => Qsum (dvals (planned pl a))) retirement).
(** saving.py:89-94 *)
Definition savings_total (pl : plan) : Q := Qsum (map (fun al => Qsum (dvals (snd al))) pl).

(** ** Withdrawals *)
(** the accounts' [tax_withheld] given their contents *)
Definition withheld_fn : Type := heap -> nat -> Q.
(** withdrawal.py:54-83, 85-124 for the accounts of the plan in turn: the account's transactions,
    then, if its withholding changed from what it was before the first transaction ([h0]), the change
    spread like the withdrawals and added to `available`.  The third component is self.tax_withheld. *)
Definition withdraw_one (kd : kinds) (default : dict Q Q) (wh : withheld_fn) (h0 : heap) (avail : nat) (st : heap * txs * Q) (al : nat * dict Q Q) : res (heap * txs * Q) :=
  let '(hx, tw) := st in let (a, l) := al in
  let* hx1 := add_transactions kd default hx l (Some avail) (Some a) false in
  let change := wh (fst hx1) a - wh h0 a in
  if Qeq_bool change 0 then Ok (hx1, tw)
  else
    let* tm := Timing (WDict l) (FNum 1) in
    let* ts := transactions_from_timing tm change in
    let* hx2 := add_transactions kd default hx1 ts None (Some avail) false in
    Ok (hx2, tw + change).
Fixpoint withdraw_all (kd : kinds) (default : dict Q Q) (wh : withheld_fn) (h0 : heap) (avail : nat) (st : heap * txs * Q) (pl : plan) : res (heap * txs * Q) :=
  match pl with [] => Ok st | al :: r => let* st := withdraw_one kd default wh h0 avail st al in withdraw_all kd default wh h0 avail st r end.
(** a WithdrawalForecast: the common part and the attribute tax_withheld (withdrawal.py:52), which
    next_year does not touch (it is inherited) and undo_transactions resets (lines 126-130) *)
Record wsub : Type := { w_sub : sub; w_withheld : Q }.
Definition withdraw_call (kd : kinds) (default : dict Q Q) (strategy : heap -> res plan) (wh : withheld_fn) (h : heap) (w : wsub) (avail : nat) : res (heap * wsub) :=
  let tw := if s_invoked (w_sub w) then 0 else w_withheld w in
  let (h1, s1) := begin_call kd h (w_sub w) avail in
  let* pl := strategy h1 in
  let* (hx, tw') := withdraw_all kd default wh h1 avail ((h1, s_tx s1), tw) pl in
  Ok (fst hx, {| w_sub := set_tx s1 (snd hx); w_withheld := tw' |}).
Definition withdraw_next_year (w : wsub) : wsub := {| w_sub := next_year (w_sub w); w_withheld := w_withheld w |}.
(** withdrawal.py:132-144 *)
Definition gross_withdrawals (w : wsub) : Q := - s_total (w_sub w).
Definition net_withdrawals (w : wsub) : Q := gross_withdrawals w + w_withheld w.

(** ** Tax *)
(** the union of the people's account sets (tax.py:53), as a list without repetition *)
Definition union_accts (people : list person) : list nat := nodup Nat.eq_dec (List.concat (map p_accts people)).
(** tax.py:45-55; [set.union] of no sets at all is a TypeError *)
Definition tax_withheld (wh : nat -> Q) (people : list person) : res Q :=
  match people with
  | [] => Err TypeError
  | _ => Ok (Qsum (map p_withheld people) + Qsum (map wh (union_accts people)))
  end.
(** tax.py:57-68 *)
Definition tax_adjustment (wh : nat -> Q) (owing : res Q) (people : list person) : res Q :=
  let* w := tax_withheld wh people in let* o := owing in Ok (w - o).
