(** Model of /repo/forecaster/strategy/gross_transaction.py. *)
From Verif Require Import Base.

(** what the strategies read of a person: the current net and gross income, their histories, and
    the set of accounts owned (by identity) *)
Record lperson : Type := { lp_net : Q; lp_gross : Q; lp_net_hist : dict Z Q; lp_gross_hist : dict Z Q; lp_accounts : list nat }.
(** a call's keyword arguments; [c_balance a] is the balance_history of account [a] *)
Record lcall : Type := { c_people : option (list lperson); c_year : option Z; c_retire : option Z; c_balance : nat -> dict Z Q }.
(** gross_transaction.py:92-151: the eight strategies *)
Inductive lkind : Type :=
  ConstContribution | ConstExpenses | NetPercent | GrossPercent | PercentOverBase
| PrincipalRet | NetPercentRet | GrossPercentRet.
(** gross_transaction.py:69-83: a strategy's parameters; the inflation adjustment called with one
    argument ([l_infl year None]) or with two ([l_infl year (Some base)]); None as a year or base is
    Python's None *)
Record lparams : Type := { l_kind : lkind; l_base : Q; l_rate : Q; l_infl : option Z -> option (option Z) -> res Q }.
(** gross_transaction.py:80-83: the default when no inflation adjustment is given *)
Definition no_inflation : option Z -> option (option Z) -> res Q := fun _ _ => Ok 1.
(** Python's set union of id sets *)
Definition set_union (l : list (list nat)) : list nat := nodup Nat.eq_dec (List.concat l).
(** indexing a history dict with a possibly-None year *)
Definition hist_get (d : dict Z Q) (y : option Z) : res Q :=
  match y with Some y => dget_r Z.eqb d y | None => Err KeyError end.
(** [sum] of a generator: the first exception is raised *)
Fixpoint sum_res (l : list (res Q)) : res Q :=
  match l with [] => Ok 0 | x :: r => let* a := x in let* b := sum_res r in Ok (a + b) end.
(** iterating over None is a TypeError *)
Definition people_of (c : lcall) : res (list lperson) := match c_people c with Some l => Ok l | None => Err TypeError end.
(** gross_transaction.py:93-151; [accounts] is None when [people] is *)
Definition run_kind (s : lparams) (c : lcall) (accounts : option (list nat)) : res Q :=
  let infl1 := l_infl s (c_year c) None in
  let infl2 := l_infl s (c_year c) (Some (c_retire c)) in
  match l_kind s with
  | ConstContribution =>
      let* ps := people_of c in let* i := infl1 in Ok (Qsum (map lp_net ps) - l_base s * i)
  | ConstExpenses => let* i := infl1 in Ok (l_base s * i)
  | NetPercent => let* ps := people_of c in Ok (l_rate s * Qsum (map lp_net ps))
  | GrossPercent => let* ps := people_of c in Ok (l_rate s * Qsum (map lp_gross ps))
  | PercentOverBase =>
      let* i := infl1 in let* ps := people_of c in
      let b := l_base s * i in Ok (b + (Qsum (map lp_net ps) - b) * l_rate s)
  | PrincipalRet =>
      match accounts with
      | None => Err TypeError
      | Some l => let* b := sum_res (map (fun a => hist_get (c_balance c a) (c_retire c)) l) in
                  let* i := infl2 in Ok (l_rate s * b * i)
      end
  | NetPercentRet =>
      let* ps := people_of c in
      let* b := sum_res (map (fun p => hist_get (lp_net_hist p) (c_retire c)) ps) in
      let* i := infl2 in Ok (l_rate s * b * i)
  | GrossPercentRet =>
      let* ps := people_of c in
      let* b := sum_res (map (fun p => hist_get (lp_gross_hist p) (c_retire c)) ps) in
      let* i := infl2 in Ok (l_rate s * b * i)
  end.
(** gross_transaction.py:155-174: [set.union] of no sets is a TypeError *)
Definition living_call (s : lparams) (c : lcall) : res Q :=
  let* accounts := match c_people c with
                   | None => Ok None
                   | Some [] => Err TypeError
                   | Some l => Ok (Some (set_union (map lp_accounts l)))
                   end in
  let* v := run_kind s c accounts in Ok (qmax v 0).
(** gross_transaction.py:177-249: a schedule wraps strategies or further schedules *)
Inductive lexp : Type := Plain (s : lparams) | Sched (working retirement : lexp) (minimum : option lexp).
Definition retired (c : lcall) : bool :=
  match c_year c, c_retire c with Some y, Some r => Z.ltb r y | _, _ => false end.
Fixpoint expenses (e : lexp) (c : lcall) : res Q :=
  match e with
  | Plain s => living_call s c
  | Sched w r m =>
      let* v := if retired c then expenses r c else expenses w c in
      match m with
      | None => Ok v
      | Some m => let* lo := expenses m c in Ok (qmax v lo)
      end
  end.
