(** Scenario, Timing and accounts as they are executed: every +, -, * and / is followed by the rounding [rnd] of the number type in
    use, and powers are computed by some function [pw] of which little is known (the C library's pow, or Decimal's).  Otherwise as in
    ScenarioModel.v, TimingModel.v, GrowthModel.v and AccountModel.v, which compute exactly.
    Simplified: no overflow, NaN or signed zero. *)
From Verif Require Import Base RBase.
Open Scope R_scope.
Notation rdict := (list (R * R)).

Section Rounding.
  Variable rnd : R -> R.

  (** ** scenario.py *)
  Definition years (a b : Z) : list Z := map (fun i => (a + Z.of_nat i)%Z) (seq 0 (Z.to_nat (b - a))).
  (** scenario.py:187-188, 191-192 *)
  Fixpoint product (accum : R) (rates : list R) : R :=
    match rates with [] => accum | r :: l => product (rnd (accum * rnd (1 + r))) l end.
  (** scenario.py:179-193 [accumulation_function], 263-288 [inflation_adjust(target, base)] *)
  Definition accumulation (inflation : Z -> R) (year1 year2 : Z) : res R :=
    if (year1 <=? year2)%Z then Ok (product 1 (map inflation (years year1 year2)))
    else let accum := product 1 (map inflation (years year2 year1)) in
         if Reqb accum 0 then Err ZeroDivisionError else Ok (rnd (1 / accum)).
  Definition inflation_adjust (inflation : Z -> R) (target base : Z) : res R := accumulation inflation base target.

  (** ** timing.py *)
  (** timing.py:86-91: times that round to the same number become one *)
  Fixpoint spread (t : R) (n : positive) (times : list nat) (d : rdict) : rdict :=
    match times with
    | [] => d
    | i :: r => spread t n r (dset Reqb d (rnd (rnd (INR i + t) / IZR (Zpos n))) (rnd (1 / IZR (Zpos n))))
    end.
  (** timing.py:41-91 [Timing(when, frequency)], [t] a time of the year *)
  Definition timing (t : R) (n : positive) : rdict := spread t n (seq 0 (Pos.to_nat n)) [].
  (** Python's [sum] *)
  Definition rsum (l : list R) : R := fold_left (fun s v => rnd (s + v)) l 0.
  (** timing.py:93-118, 141-171 [time_series] *)
  Definition time_series (d : rdict) (scalar : R) : res rdict :=
    let n := rsum (dvals d) in
    if (Reqb n 0 && negb (match d with [] => true | _ => false end))%bool then Err ZeroDivisionError
    else Ok (map (fun kv => (fst kv, rnd (rnd (snd kv / n) * scalar))) d).

  (** ** accounts *)
  Variable pw : R -> R -> R.
  Variable e : R.                      (* math.e *)
  Record raccount : Type := { r_bal : R; r_rate : R; r_nper : option positive; r_txns : rdict }.
  (** accounts/util.py:19-73 [accumulation_function] *)
  Definition growth (rate : R) (nper : option positive) (t : R) : R :=
    match nper with
    | None => pw e (rnd (rate * t))
    | Some n => pw (rnd (1 + rnd (rate / IZR (Zpos n)))) (rnd (IZR (Zpos n) * t))
    end.
  (** accounts/util.py:127-150 [value_at_time] *)
  Definition value_at_time (value rate : R) (now time : R) (nper : option positive) : R :=
    rnd (value * growth rate nper (rnd (time - now))).
  (** accounts/base.py:346-368 [add_transaction], at a time of the year *)
  Definition add_transaction (a : raccount) (value t : R) : raccount :=
    {| r_bal := r_bal a; r_rate := r_rate a; r_nper := r_nper a; r_txns := dset Reqb (r_txns a) t (rnd (rval (r_txns a) t + value)) |}.
  (** accounts/base.py:889-923 [balance_at_time] *)
  Definition balance_at_time (a : raccount) (t : R) : R :=
    fold_left (fun s kv => rnd (s + value_at_time (snd kv) (r_rate a) (fst kv) t (r_nper a))) (filter (fun kv => Rleb (fst kv) t) (r_txns a))
      (value_at_time (r_bal a) (r_rate a) 0 t (r_nper a)).
  (** accounts/base.py:302-330 [returns] *)
  Definition returns (a : raccount) : R :=
    fold_left (fun s kv => rnd (s + rnd (snd kv * rnd (growth (r_rate a) (r_nper a) (rnd (1 - fst kv)) - 1)))) (r_txns a)
      (rnd (r_bal a * rnd (growth (r_rate a) (r_nper a) 1 - 1))).
  (** accounts/base.py:218-249 the next year's [balance], [rate]: that year's rate *)
  Definition next_balance (a : raccount) (rate : R) : R :=
    fold_left (fun s kv => rnd (s + value_at_time (snd kv) rate (fst kv) 1 (r_nper a))) (r_txns a) (value_at_time (r_bal a) rate 0 1 (r_nper a)).
  (** accounts/base.py:388-406 [next_year] *)
  Definition next_year (a : raccount) (rate : R) : raccount :=
    {| r_bal := next_balance a rate; r_rate := rate; r_nper := r_nper a; r_txns := [] |}.
  (** an extended number, rounded *)
  Definition ernd (x : er) : er := match x with Fin v => Fin (rnd v) | _ => x end.
  (** accounts/base.py:552-570: the weights of [transactions_to_balance] *)
  Definition normalized (d : rdict) : rdict :=
    let total := rsum (dvals d) in
    let '(d', total') := if Reqb total 0 then (map (fun kv => (fst kv, 1)) d, INR (List.length d)) else (d, total) in
    map (fun kv => (fst kv, rnd (snd kv / total'))) (filter (fun kv => negb (Reqb (snd kv) 0)) d').
  (** accounts/base.py:485-610 [transactions_to_balance] *)
  Definition transactions_to_balance (a : raccount) (target : er) (timing : rdict) (max_total min_total : er) : res (list (R * er)) :=
    let change := ernd (esub target (balance_at_time a 1)) in
    let nt := normalized timing in
    let accum := fold_left (fun s kv => rnd (s + rnd (snd kv * growth (r_rate a) (r_nper a) (rnd (1 - fst kv))))) nt 0 in
    if Reqb accum 0 then Err ZeroDivisionError else
    let total := emax (emin (ernd (ediv change accum)) max_total) min_total in
    Ok (map (fun kv => (fst kv, ernd (escale total (snd kv)))) nt).
  (** accounts/base.py:370-386 [inflows], [outflows]; 612-724 [max_outflows], [max_inflows]; [limit]: what is allowed in the year *)
  Definition flows (keep : R -> bool) (a : raccount) : R := rnd (0 + rsum (filter keep (dvals (r_txns a)))).
  Definition max_outflows (a : raccount) (limit : er) (timing : rdict) (transaction_limit balance_limit : er) :=
    let m := ernd (esub limit (flows (fun v => Rltb v 0) a)) in
    transactions_to_balance a balance_limit timing (Fin 0) (emin (emax m transaction_limit) (Fin 0)).
  Definition max_inflows (a : raccount) (limit : er) (timing : rdict) (transaction_limit balance_limit : er) :=
    let m := ernd (esub limit (flows (fun v => Rltb 0 v) a)) in
    transactions_to_balance a balance_limit timing (emax (emin m transaction_limit) (Fin 0)) (Fin 0).
End Rounding.
