(** Model of /repo/forecaster/accounts/base.py ([Account]) and accounts/debt.py ([Debt])
    over the reals.  Times, money and rates are real numbers; limits are extended reals. *)
From Verif Require Import Base RBase GrowthModel.
Open Scope R_scope.
Local Open Scope string_scope.

(** base.py:100-175: the state of an account in the current year.
    [a_bal] is the recorded value of [balance] for [a_year]; [a_rate] is [rate_callable].
    Owner handling is in PersonModel.v. *)
Record account : Type := {
  a_year : Z;
  a_bal : R;
  a_rate : Z -> R;
  a_nper : option positive;
  a_txns : dict R R;           (* _transactions *)
  a_timing : dict R R          (* default_timing: {when: weight} *)
}.

(** base.py:285-290 [rate] *)
Definition rate (a : account) : R := a_rate a (a_year a).
(** the account's growth factor over [t] in the current year *)
Definition growth (a : account) (t : R) : R := accumulation_function t (rate a) (a_nper a).

Definition with_txns (a : account) (d : dict R R) : account :=
  {| a_year := a_year a; a_bal := a_bal a; a_rate := a_rate a; a_nper := a_nper a;
     a_txns := d; a_timing := a_timing a |}.

(** a [when] argument: number or string *)
Inductive rwhen : Type := RNum (t : R) | RStr (s : string).
(** utility/timing.py:381-420 [when_conv] over the reals *)
Definition rwhen_conv (w : rwhen) : res R :=
  match w with
  | RStr s => if String.eqb s "end" then Ok 1
              else if String.eqb s "start" then Ok 0 else Err TypeError
  | RNum t => if orb (Rltb 1 t) (Rltb t 0) then Err ValueError else Ok t
  end.

(** base.py:346-368 [add_transaction] *)
Definition add_transaction (a : account) (value : R) (when : rwhen) : res account :=
  let* t := rwhen_conv when in Ok (with_txns a (rincr (a_txns a) t value)).
(** adding several transactions one by one (the way calling code applies a
    [{when: value}] dict to an account) *)
Fixpoint add_all (a : account) (l : list (R * R)) : res account :=
  match l with
  | [] => Ok a
  | (t, v) :: r => let* a' := add_transaction a v (RNum t) in add_all a' r
  end.

Definition pos_part (d : dict R R) : R := Rsum (filter (fun v => Rltb 0 v) (dvals d)).
Definition neg_part (d : dict R R) : R := Rsum (filter (fun v => Rltb v 0) (dvals d)).
(** base.py:370-377 [inflows], 379-386 [outflows] *)
Definition inflows (a : account) (extra : option (dict R R)) : R :=
  (match extra with Some d => pos_part d | None => 0 end) + pos_part (a_txns a).
Definition outflows (a : account) (extra : option (dict R R)) : R :=
  (match extra with Some d => neg_part d | None => 0 end) + neg_part (a_txns a).

(** utility/timing.py:470-498 [add_transactions] over the reals *)
Definition radd_transactions (base added : dict R R) : dict R R :=
  fold_left (fun b kv => rincr b (fst kv) (snd kv)) added base.

(** base.py:889-923 [balance_at_time] (time already converted) *)
Definition all_txns (a : account) (extra : option (dict R R)) : dict R R :=
  match extra with Some d => radd_transactions d (a_txns a) | None => a_txns a end.
Definition balance_at_time (a : account) (time : R) (extra : option (dict R R)) : R :=
  value_at_time (a_bal a) (rate a) 0 time (a_nper a) +
  Rsum (map (fun kv => value_at_time (snd kv) (rate a) (fst kv) time (a_nper a))
            (filter (fun kv => Rleb (fst kv) time) (all_txns a extra))).

(** base.py:302-330 [returns] *)
Definition returns (a : account) : R :=
  a_bal a * (growth a 1 - 1) +
  Rsum (map (fun kv => snd kv * (growth a (1 - fst kv) - 1)) (a_txns a)).
(** base.py:835-838 [taxable_income] *)
Definition taxable_income (a : account) : R := Rmax (returns a) 0.

(** base.py:218-249 [balance] as computed after an advance: last year's balance and
    transactions are grown with [self.rate], which by then is the *new* year's rate. *)
Definition next_balance (a : account) : R :=
  let r := a_rate a (a_year a + 1)%Z in
  value_at_time (a_bal a) r 0 1 (a_nper a) +
  Rsum (map (fun kv => value_at_time (snd kv) r (fst kv) 1 (a_nper a)) (a_txns a)).
(** base.py:388-406 [next_year]: record, advance, fresh transactions *)
Definition next_year (a : account) : account :=
  {| a_year := (a_year a + 1)%Z; a_bal := next_balance a; a_rate := a_rate a;
     a_nper := a_nper a; a_txns := []; a_timing := a_timing a |}.

(** base.py:552-570: the normalised timing used by [transactions_to_balance].  [timing] is a
    Timing, i.e. {when: weight}; an empty one is replaced by the default (line 534). *)
Definition clean_timing (a : account) (timing : option (dict R R)) : dict R R :=
  match timing with None | Some [] => a_timing a | Some d => d end.
Definition normalized_timing (d : dict R R) : dict R R :=
  let total := Rsum (dvals d) in
  let '(d', total') := if Reqb total 0 then (map (fun kv => (fst kv, 1)) d, INR (List.length d))
                       else (d, total) in
  map (fun kv => (fst kv, snd kv / total')) (filter (fun kv => negb (Reqb (snd kv) 0)) d').

(** base.py:485-610 [transactions_to_balance] *)
Definition transactions_to_balance (a : account) (target : er) (timing : option (dict R R))
    (max_total min_total : option er) (extra : option (dict R R)) : res (list (R * er)) :=
  let change := esub target (balance_at_time a 1 extra) in
  let nt := normalized_timing (clean_timing a timing) in
  let weighted_accum := Rsum (map (fun kv => snd kv * growth a (1 - fst kv)) nt) in
  if Reqb weighted_accum 0 then Err ZeroDivisionError else
  let total := ediv change weighted_accum in
  let total := match max_total with Some m => emin total m | None => total end in
  let total := match min_total with Some m => emax total m | None => total end in
  Ok (map (fun kv => (fst kv, escale total (snd kv))) nt).

(** base.py:408-455 the four annual limits; overridden by subclasses, so a parameter here *)
Record limits : Type := { max_in : er; min_in : er; max_out : er; min_out : er }.
Definition account_limits : limits :=
  {| max_in := PInf; min_in := Fin 0; max_out := MInf; min_out := Fin 0 |}.

Definition opt_emin (a : er) (o : option er) : er := match o with Some b => emin a b | None => a end.
Definition opt_emax (a : er) (o : option er) : er := match o with Some b => emax a b | None => a end.
Definition opt_default (o : option er) (d : er) : er := match o with Some x => x | None => d end.

(** base.py:612-670 [max_outflows] and 726-779 [min_outflows]: same body, different limit *)
Definition outflows_upto (a : account) (limit : er) (timing : option (dict R R))
    (transaction_limit balance_limit : option er) (extra : option (dict R R)) :=
  let min_total := emin (opt_emax (esub limit (outflows a extra)) transaction_limit) (Fin 0) in
  transactions_to_balance a (opt_default balance_limit (Fin 0)) timing
    (Some (Fin 0)) (Some min_total) extra.
Definition max_outflows (L : limits) (a : account) := outflows_upto a (max_out L).
Definition min_outflows (L : limits) (a : account) := outflows_upto a (min_out L).
(** base.py:672-724 [max_inflows] and 781-833 [min_inflows] *)
Definition inflows_upto (a : account) (limit : er) (timing : option (dict R R))
    (transaction_limit balance_limit : option er) (extra : option (dict R R)) :=
  let max_total := emax (opt_emin (esub limit (inflows a extra)) transaction_limit) (Fin 0) in
  transactions_to_balance a (opt_default balance_limit PInf) timing
    (Some max_total) (Some (Fin 0)) extra.
Definition max_inflows (L : limits) (a : account) := inflows_upto a (max_in L).
Definition min_inflows (L : limits) (a : account) := inflows_upto a (min_in L).

(** base.py:469-477 [max_outflow(when)] *)
Definition max_outflow (L : limits) (a : account) (when : R) : er :=
  emax (Fin (Rmin (- balance_at_time a when None) 0)) (max_out L).

(** Python's [min(iterable, default=d)] over transaction times, d extended *)
Definition next_after (d : dict R R) (when : R) (dflt : er) : er :=
  match filter (fun t => Rltb when t) (dkeys d) with
  | [] => dflt
  | t :: r => Fin (fold_left Rmin r t)
  end.
(** base.py:925-962 [time_to_balance]; [n] bounds the recursion (each call starts at a
    strictly later transaction, so the number of transactions plus one suffices) *)
Fixpoint time_to_balance (n : nat) (a : account) (value : R) (when : R) : res er :=
  let balance := balance_at_time a when None in
  let* d := time_to_value (rate a) balance value (a_nper a) in
  let time := eadd (Fin when) d in
  match next_after (a_txns a) when time with
  | Fin t => if negb (eleb time (Fin t))
             then match n with O => Err StopIteration | S m => time_to_balance m a value t end
             else Ok time
  | _ => Ok time
  end.
Definition time_to_balance_top (a : account) (value : R) (when : rwhen) : res er :=
  let* t := rwhen_conv when in time_to_balance (List.length (a_txns a)) a value t.

(** base.py:855-864, 882-884: the mapping interface.  [key in self._transactions] on line 859
    compares the raw key, so a string key is never found. *)
Definition setitem (a : account) (key : rwhen) (value : R) : res account :=
  let a' := match key with
            | RNum t => if dmem Reqb (a_txns a) t then with_txns a (ddel Reqb (a_txns a) t) else a
            | RStr _ => a
            end in
  add_transaction a' value key.
Definition delitem (a : account) (t : R) : res account :=
  if dmem Reqb (a_txns a) t then Ok (with_txns a (ddel Reqb (a_txns a) t)) else Err KeyError.
Definition clear (a : account) : account := with_txns a [].
(** base.py:855-856 [__getitem__] on the defaultdict: a missing key reads 0 and is inserted *)
Definition getitem (a : account) (t : R) : R * account :=
  match dget Reqb (a_txns a) t with
  | Some v => (v, a)
  | None => (0, with_txns a (dset Reqb (a_txns a) t 0))
  end.

(** ** Debt (debt.py) *)
(** debt.py:66-71: the constructor negates positive balances by assigning [self.balance].
    [input] is the user's recorded input for the initial year; an input wins over both
    assignments (ledger/recorded_property.py:70-72). *)
Definition debt_initial_balance (balance : option R) (input : option R) : R :=
  let b := match input with Some i => i | None => match balance with Some b => b | None => 0 end end in
  if Rltb 0 b then match input with Some i => i | None => - b end else b.
(** debt.py:91-107 *)
Definition debt_limits (minimum_payment : R) (accelerated_payment : er) : limits :=
  {| max_in := eadd (Fin minimum_payment) accelerated_payment; min_in := Fin minimum_payment;
     max_out := Fin 0; min_out := Fin 0 |}.
(** debt.py:123-157 [max_inflows], 159-193 [min_inflows]: balance limit defaults to 0 *)
Definition debt_max_inflows (mp : R) (ap : er) (a : account) (timing : option (dict R R))
    (transaction_limit balance_limit : option er) (extra : option (dict R R)) :=
  max_inflows (debt_limits mp ap) a timing transaction_limit
    (Some (opt_default balance_limit (Fin 0))) extra.
Definition debt_min_inflows (mp : R) (ap : er) (a : account) (timing : option (dict R R))
    (transaction_limit balance_limit : option er) (extra : option (dict R R)) :=
  min_inflows (debt_limits mp ap) a timing transaction_limit
    (Some (opt_default balance_limit (Fin 0))) extra.
(** debt.py:111-121 [max_inflow(when)] *)
Definition debt_max_inflow (mp : R) (ap : er) (a : account) (when : R) : er :=
  emin (Fin (Rmax (- balance_at_time a when None) 0)) (max_in (debt_limits mp ap)).
