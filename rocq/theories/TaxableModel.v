(** Model of /repo/forecaster/canada/accounts/taxable_account.py over the reals, on top of
    AccountModel.v. *)
From Verif Require Import Base RBase GrowthModel AccountModel.
Open Scope R_scope.

Definition rdiv (a b : R) : res R := if Reqb b 0 then Err ZeroDivisionError else Ok (a / b).
(** sorted(transactions.keys()) together with the values: insertion sort by time *)
Fixpoint rinsert (kv : R * R) (l : list (R * R)) : list (R * R) :=
  match l with
  | [] => [kv]
  | x :: r => if Rleb (fst kv) (fst x) then kv :: l else x :: rinsert kv r
  end.
Fixpoint rsort (l : list (R * R)) : list (R * R) :=
  match l with [] => [] | x :: r => rinsert x (rsort r) end.

(** taxable_account.py:92-106, the loop: [bal] is balance_at_time (after the transaction);
    returns (capital gain, cost base) *)
Fixpoint gain_loop (bal : R -> R) (l : list (R * R)) (gain acb : R) : res (R * R) :=
  match l with
  | [] => Ok (gain, acb)
  | (when, value) :: r =>
      if Rleb 0 value then gain_loop bal r gain (acb + value)
      else
        let balance := bal when - value in
        let* q := rdiv acb balance in
        let* p := rdiv (- value) balance in
        gain_loop bal r (gain + - value * (1 - q)) (acb * (1 - p))
  end.

(** the account plus the histories of acb, capital_gain and transactions, and the user inputs *)
Record tacct : Type := {
  t_acct : account;
  t_acb : dict Z R; t_gain : dict Z R; t_txns : dict Z (dict R R);
  t_acb_in : dict Z R; t_gain_in : dict Z R
}.
Definition t_year (s : tacct) : Z := a_year (t_acct s).
Definition t_with (s : tacct) (a : account) acb gain : tacct :=
  {| t_acct := a; t_acb := acb; t_gain := gain; t_txns := t_txns s; t_acb_in := t_acb_in s; t_gain_in := t_gain_in s |}.
(** taxable_account.py:52-59 with ledger/base.py:60-92: inputs are copied into the histories, then
    acb is assigned (ignored if there is an input for it) *)
Definition t_init (a : account) (acb : option R) (acb_in gain_in : dict Z R) : tacct :=
  {| t_acct := a;
     t_acb := if dmem Z.eqb acb_in (a_year a) then acb_in
              else dset Z.eqb acb_in (a_year a) (match acb with Some v => v | None => a_bal a end);
     t_gain := gain_in; t_txns := []; t_acb_in := acb_in; t_gain_in := gain_in |}.
(** taxable_account.py:64-72 *)
Definition read_acb (s : tacct) : res R := dget_r Z.eqb (t_acb s) (t_year s).
(** taxable_account.py:74-110 with caching (recorded_property.py:152-157) *)
Definition read_gain (s : tacct) : res (R * tacct) :=
  match dget Z.eqb (t_gain s) (t_year s) with
  | Some v => Ok (v, s)
  | None =>
    let* acb := read_acb s in
    let* r := gain_loop (fun t => balance_at_time (t_acct s) t None) (rsort (a_txns (t_acct s))) 0 acb in
    Ok (fst r, t_with s (t_acct s) (dset Z.eqb (t_acb s) (t_year s + 1)%Z (snd r))
                                   (dset Z.eqb (t_gain s) (t_year s) (fst r)))
  end.
(** taxable_account.py:122-137 *)
Definition read_taxable (s : tacct) : res (R * tacct) :=
  let* r := read_gain s in Ok (fst r / 2, snd r).
(** taxable_account.py:112-120 *)
Definition t_add (s : tacct) (value : R) (when : rwhen) : res tacct :=
  let* a := add_transaction (t_acct s) value when in
  Ok (t_with s a (ddel Z.eqb (t_acb s) (t_year s + 1)%Z) (ddel Z.eqb (t_gain s) (t_year s))).
(** base.py:858-861: account[key] = value (calls the overridden add_transaction) *)
Definition t_set (s : tacct) (key : rwhen) (value : R) : res tacct :=
  let* a := setitem (t_acct s) key value in
  Ok (t_with s a (ddel Z.eqb (t_acb s) (t_year s + 1)%Z) (ddel Z.eqb (t_gain s) (t_year s))).
(** base.py:863-864 and 882-884: not overridden *)
Definition t_del (s : tacct) (t : R) : res tacct :=
  let* a := delitem (t_acct s) t in Ok (t_with s a (t_acb s) (t_gain s)).
Definition t_clear (s : tacct) : tacct := t_with s (clear (t_acct s)) (t_acb s) (t_gain s).
(** ledger/base.py:94-111 with accounts/base.py:388-406: record acb, capital_gain and transactions,
    then advance *)
Definition t_next (s : tacct) : res tacct :=
  let* _ := read_acb s in
  let* r := read_gain s in
  let s1 := snd r in
  Ok {| t_acct := next_year (t_acct s1); t_acb := t_acb s1; t_gain := t_gain s1;
        t_txns := dset Z.eqb (t_txns s1) (t_year s1) (a_txns (t_acct s1));
        t_acb_in := t_acb_in s1; t_gain_in := t_gain_in s1 |}.

Inductive top : Type :=
| TAdd (v : R) (w : rwhen) | TSet (w : rwhen) (v : R) | TDel (t : R) | TClear | TGain | TTaxable | TNext.
Definition tstep (s : tacct) (o : top) : res tacct :=
  match o with
  | TAdd v w => t_add s v w
  | TSet w v => t_set s w v
  | TDel t => t_del s t
  | TClear => Ok (t_clear s)
  | TGain => let* r := read_gain s in Ok (snd r)
  | TTaxable => let* r := read_taxable s in Ok (snd r)
  | TNext => t_next s
  end.
Fixpoint tsteps (s : tacct) (os : list top) : res tacct :=
  match os with [] => Ok s | o :: r => let* s' := tstep s o in tsteps s' r end.
