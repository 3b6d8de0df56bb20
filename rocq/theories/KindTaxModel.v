(** Model of /repo/forecaster/tax.py [Tax] and of the settlement of taxes (forecast/base.py) with the Python types of the numbers
    (see KindModel.v: int, float, the type made by high_precision).  The definitions follow those of TaxModel.v, which leaves the types out.
    Simplified as there: exact arithmetic. *)
From Verif Require Import Base InflationModel RBase KindModel.
From Verif Require RegModel TaxModel.
Open Scope Q_scope.

Definition qn : Type := num Q.
Definition whole (x : Q) : qn := Num Int x.
Definition qadd : qn -> qn -> res qn := lift Qplus.
Definition qsub : qn -> qn -> res qn := lift Qminus.
Definition qmul : qn -> qn -> res qn := lift Qmult.
(** [a / b] *)
Definition kqdiv (a b : qn) : res qn :=
  match mix (kd a) (kd b) with
  | None => Err TypeError
  | Some k => let* v := qdiv (va a) (va b) in Ok (Num (match k with Int => Float | _ => k end) v)
  end.
(** numbers of different types are compared, and looked up in dicts, by their values *)
Definition keq (a b : qn) : bool := Qeq_bool (va a) (va b).
(** Python's [max(a, b)], [min(a, b)]: the first of equals *)
Definition kmax2 (a b : qn) : qn := Num (if Qlt_bool (va a) (va b) then kd b else kd a) (qmax (va a) (va b)).
Definition kmin2 (a b : qn) : qn := Num (if Qlt_bool (va b) (va a) then kd b else kd a) (qmin (va a) (va b)).
Definition kmax_opt (l : list qn) : option qn := match l with [] => None | x :: r => Some (fold_left kmax2 r x) end.
Definition kmin_opt (l : list qn) : option qn := match l with [] => None | x :: r => Some (fold_left kmin2 r x) end.
(** sorted(keys) *)
Fixpoint kinsert (k : qn) (l : list qn) : list qn :=
  match l with [] => [k] | x :: r => if Qle_bool (va k) (va x) then k :: l else x :: kinsert k r end.
Fixpoint ksort (l : list qn) : list qn := match l with [] => [] | x :: r => kinsert x (ksort r) end.
Fixpoint kremove (k : qn) (l : list qn) : list qn :=
  match l with [] => [] | x :: r => if keq x k then r else x :: kremove k r end.

Definition ktable : Type := list (qn * qn).
(** tax.py:331-334 *)
Fixpoint accum_loop (b : ktable) (prev : qn) (ks : list qn) (acc : ktable) : res ktable :=
  match ks with
  | [] => Ok acc
  | k :: r =>
      let* width := qsub k prev in
      let* rate := dget_r keq b prev in
      let* t := qmul width rate in
      let* a := dget_r keq acc prev in
      let* s := qadd t a in
      accum_loop b k r (dset keq acc k s)
  end.
(** tax.py:320-334 *)
Definition add_accum (hp : bool) (b : ktable) : res ktable :=
  match kmin_opt (dkeys b) with
  | None => Err ValueError
  | Some prev => accum_loop b prev (kremove prev (ksort (dkeys b))) [(prev, conv hp (whole 0))]
  end.

(** the Tax object; [k_hp]: whether it has high_precision *)
Record ktax : Type := {
  k_hp : bool; k_brk : dict Z ktable; k_acc : dict Z ktable; k_ia : Z -> option Z -> res qn; k_pd : dict Z qn; k_cr : dict Z qn }.
Definition with_tables (s : ktax) b a : ktax :=
  {| k_hp := k_hp s; k_brk := b; k_acc := a; k_ia := k_ia s; k_pd := k_pd s; k_cr := k_cr s |}.
(** tax.py:310-318 *)
Definition add_brackets (s : ktax) (b : ktable) (year : Z) : res ktax :=
  let* a := add_accum (k_hp s) b in
  Ok (with_tables s (dset Z.eqb (k_brk s) year b) (dset Z.eqb (k_acc s) year a)).
Fixpoint add_all_brackets (s : ktax) (l : list (Z * ktable)) : res ktax :=
  match l with [] => Ok s | (y, b) :: r => let* s' := add_brackets s b y in add_all_brackets s' r end.

(** utility/inflation.py:113-166 [build_inflation_adjust] *)
Inductive kinfl : Type := INone | IDict (d : dict Z qn) | ICallable (f : Z -> option Z -> res qn) | IOther.
Definition build_inflation_adjust (a : kinfl) : res (Z -> option Z -> res qn) :=
  match a with
  | INone => Ok (fun _ _ => Ok (whole 1))
  | IDict d =>
    match zminl (dkeys d) with
    | None => Err ValueError
    | Some default_base =>
      Ok (fun target base =>
            let b := match base with Some b => b | None => default_base end in
            let* x := dget_r Z.eqb d target in
            let* y := dget_r Z.eqb d b in
            kqdiv x y)
    end
  | IOther => Err TypeError
  | ICallable f => Ok f
  end.
(** tax.py:114-192 [__init__] *)
Definition tax_init (hp : bool) (brackets : dict Z ktable) (pd cr : dict Z qn) (ia : kinfl) : res ktax :=
  let* f := build_inflation_adjust ia in
  let* s := add_all_brackets {| k_hp := hp; k_brk := []; k_acc := []; k_ia := f; k_pd := pd; k_cr := cr |} brackets in
  let* p := match pd with
            | [] => match zminl (dkeys (k_brk s)) with Some y => Ok [(y, conv hp (whole 0))] | None => Err ValueError end
            | _ => Ok pd end in
  let* c := match cr with
            | [] => match zminl (dkeys (k_brk s)) with Some y => Ok [(y, conv hp (whole 1))] | None => Err ValueError end
            | _ => Ok cr end in
  Ok {| k_hp := hp; k_brk := k_brk s; k_acc := k_acc s; k_ia := k_ia s; k_pd := p; k_cr := c |}.
(** tax.py:203-207 *)
Fixpoint scale_keys (ia : res qn) (b : ktable) (out : ktable) : res ktable :=
  match b with
  | [] => Ok out
  | (k, r) :: l => let* f := ia in let* k' := qmul k f in scale_keys ia l (dset keq out k' r)
  end.
(** tax.py:194-211 *)
Definition tax_brackets (s : ktax) (year : Z) : res (ktable * ktax) :=
  match dget Z.eqb (k_brk s) year with
  | Some b => Ok (b, s)
  | None =>
    match nearest_year (k_brk s) year with
    | None => Err KeyError
    | Some base =>
      let* b := dget_r Z.eqb (k_brk s) base in
      let* b' := scale_keys (k_ia s year (Some base)) b [] in
      let* s' := add_brackets s b' year in
      Ok (b', s')
    end
  end.
(** tax.py:213-224 with utility/inflation.py:84-110 [extend_inflation_adjusted] *)
Definition accum (s : ktax) (year : Z) : res (ktable * ktax) :=
  match dget Z.eqb (k_acc s) year with
  | Some a => Ok (a, s)
  | None =>
    let* b := match dget Z.eqb (k_brk s) year with
              | Some b => Ok b
              | None =>
                match nearest_year (k_brk s) year with
                | None => Err KeyError
                | Some base =>
                  if Z.eqb base year then Err ValueError else
                  let* b := dget_r Z.eqb (k_brk s) base in
                  mapM (fun kv => let* f := k_ia s year (Some base) in let* v := qmul (snd kv) f in Ok (fst kv, v)) b
                end
              end in
    let* s' := add_brackets s b year in
    let* a := dget_r Z.eqb (k_acc s') year in Ok (a, s')
  end.
(** tax.py:226-229 *)
Definition personal_deduction (s : ktax) (year : Z) : res qn :=
  match dget Z.eqb (k_pd s) year with
  | Some v => Ok v
  | None =>
    match nearest_year (k_pd s) year with
    | None => Err KeyError
    | Some base =>
      if Z.eqb base year then Err ValueError else
      let* v := dget_r Z.eqb (k_pd s) base in let* f := k_ia s year (Some base) in qmul v f
    end
  end.
(** tax.py:272-274 *)
Definition credit_rate (s : ktax) (year : Z) : res qn :=
  match nearest_year (k_cr s) year with None => Err KeyError | Some y => dget_r Z.eqb (k_cr s) y end.
(** tax.py:296-303 *)
Definition bracket_of (b : ktable) (income : qn) : res qn :=
  match kmax_opt (filter (fun k => Qlt_bool (va k) (va income)) (dkeys b)) with
  | Some k => Ok k
  | None => match kmin_opt (dkeys b) with Some k => Ok k | None => Err ValueError end
  end.
Definition marginal_bracket (s : ktax) (income : qn) (year : Z) : res (qn * ktax) :=
  let* (b, s1) := tax_brackets s year in
  let* k := bracket_of b income in Ok (k, s1).
(** tax.py:305-308 *)
Definition marginal_rate (s : ktax) (income : qn) (year : Z) : res (qn * ktax) :=
  let* (b, s1) := tax_brackets s year in
  let* (k, s2) := marginal_bracket s1 income year in
  let* r := dget_r keq b k in Ok (r, s2).
(** tax.py:336-382 *)
Definition tax_money (s : ktax) (income : qn) (year : Z) (deduction credit : qn) : res (qn * ktax) :=
  let* ti := qsub income deduction in
  let* (b, s1) := tax_brackets s year in
  let* (k, s2) := marginal_bracket s1 ti year in
  let* rate := dget_r keq b k in
  let* (at_, s3) := accum s2 year in
  let* a := dget_r keq at_ k in
  let* over := qsub ti k in
  let* m := qmul over rate in
  let* gross := qadd a m in
  let* cr := credit_rate s3 year in
  let* c := qmul credit cr in
  let* net := qsub gross c in
  Ok (kmax2 net (conv (k_hp s) (whole 0)), s3).

(** what tax.py reads of a person *)
Record kpayer : Type := { kp_income : dict Z qn; kp_deduction : dict Z qn; kp_credit : dict Z qn }.
(** tax.py:384-414, 231-247, 253-268 *)
Definition tax_person (s : ktax) (p : kpayer) (year : Z) (ded cred : qn) : res (qn * ktax) :=
  let* income := dget_r Z.eqb (kp_income p) year in
  let* d1 := dget_r Z.eqb (kp_deduction p) year in
  let* pd := personal_deduction s year in
  let* d2 := qadd pd d1 in
  let* d12 := qadd d1 d2 in
  let* d := qadd d12 ded in
  let* c1 := dget_r Z.eqb (kp_credit p) year in
  let* c12 := qadd c1 c1 in
  let* c := qadd c12 cred in
  tax_money s income year d c.
(** tax.py:464-468, 514-518: a person without an entry leaves tax_person's default, the int 0 *)
Definition amount_for (d : dict nat qn) (n : nat) : qn := match dget Nat.eqb d n with Some q => q | None => whole 0 end.
(** tax.py:475-520 *)
Fixpoint tax_each (s : ktax) (who : nat -> kpayer) (people : list nat) (year : Z) (ded cred : dict nat qn) : res (qn * ktax) :=
  match people with
  | [] => Ok (conv (k_hp s) (whole 0), s)
  | n :: r =>
      let* (t, s1) := tax_person s (who n) year (amount_for ded n) (amount_for cred n) in
      let* (u, s2) := tax_each s1 who r year ded cred in
      let* v := qadd t u in Ok (v, s2)
  end.
(** tax.py:416-473, as in TaxModel.v *)
Fixpoint tax_people (fuel : nat) (order : list nat -> list nat) (s : ktax) (who : nat -> kpayer) (spouse : nat -> option nat)
    (people : list nat) (year : Z) (ded cred : dict nat qn) : res (qn * ktax) :=
  match fuel with
  | O => match people with [] => Ok (conv (k_hp s) (whole 0), s) | _ => Err StopIteration end
  | S fuel' =>
    match people with
    | [] => Ok (conv (k_hp s) (whole 0), s)
    | n :: _ =>
      let alone :=
        let* (t, s1) := tax_person s (who n) year (amount_for ded n) (amount_for cred n) in
        let* (u, s2) := tax_people fuel' order s1 who spouse (order (TaxModel.minus people [n])) year ded cred in
        let* v := qadd t u in Ok (v, s2) in
      match spouse n with
      | Some m =>
          if existsb (Nat.eqb m) people then
            let* (t, s1) := tax_each s who (order (if Nat.eqb n m then [n] else [n; m])) year ded cred in
            let* (u, s2) := tax_people fuel' order s1 who spouse (order (TaxModel.minus people [n; m])) year ded cred in
            let* v := qadd t u in Ok (v, s2)
          else alone
      | None => alone
      end
    end
  end.
(** tax.py:782-790 [TaxMulti.__call__] for an amount of money: sum() over the jurisdictions starts from the int 0; without an entry for
    the jurisdiction the deduction or credit is None, which tax_money's caller replaces by leaving out the argument: the int 0
    (tax.py:336-337, 556-585) *)
Definition opt0 (o : option qn) : qn := match o with Some q => q | None => whole 0 end.
Fixpoint multi_from (i : nat) (so_far : qn) (js : list ktax) (income : qn) (year : Z) (ded cred : dict nat qn) : res (qn * list ktax) :=
  match js with
  | [] => Ok (so_far, [])
  | j :: r =>
      let* (t, j') := tax_money j income year (opt0 (dget Nat.eqb ded i)) (opt0 (dget Nat.eqb cred i)) in
      let* s := qadd so_far t in
      let* (u, r') := multi_from (S i) s r income year ded cred in Ok (u, j' :: r')
  end.
Definition multi_call (js : list ktax) (income : qn) (year : Z) (ded cred : dict nat qn) : res (qn * list ktax) := multi_from 0 (whole 0) js income year ded cred.
(** canada/tax.py:13-34 [TaxCanadaJurisdiction]: the argument high_precision is used for the constants (parameters here) and not
    passed on to Tax *)
Definition canada_init (high_precision : bool) (brackets : dict Z ktable) (pd cr : dict Z qn) (ia : kinfl) : res ktax :=
  tax_init false brackets pd cr ia.

(** ** settling the year's tax; times and amounts are real numbers as in KindModel.v *)
(** tax.py:281-284, 291-294: [Timing(val)] whatever the precision; a Timing is copied (utility/timing.py:66-68) *)
Inductive timing_val : Type := VTiming (d : kdict) | VWhen (w : kwhen).
Definition tax_timing (v : timing_val) : res kdict :=
  match v with VTiming d => Ok d | VWhen w => timing false (Given w) (inl 1%positive) end.
(** utility/timing.py:93-118, 141-171 [time_series] *)
Definition time_series (d : kdict) (scalar : num R) : res kdict :=
  let* total := ksum (int 0) (map snd d) in
  mapM (fun kv : num R * num R => let* x := kdiv Rdiv (snd kv) total in let* y := kmul x scalar in Ok (fst kv, y)) d.
(** forecast/base.py:239-260 [_carryover_tax], for a tax treatment with the given timings *)
Definition carryover_tax (available : kdict) (adjustment : num R) (refund payment : timing_val) : res kdict :=
  if Rltb 0 (va adjustment) then let* d := tax_timing refund in let* t := time_series d adjustment in add_transactions available t
  else if Rltb (va adjustment) 0 then let* d := tax_timing payment in let* t := time_series d adjustment in add_transactions available t
  else Ok available.
