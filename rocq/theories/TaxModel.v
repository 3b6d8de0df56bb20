(** Model of /repo/forecaster/tax.py: [Tax] and [TaxMulti], over exact rationals. *)
From Verif Require Import Base InflationModel RegModel.

(** sorted(keys): insertion sort *)
Fixpoint qinsert (k : Q) (l : list Q) : list Q :=
  match l with [] => [k] | x :: r => if Qle_bool k x then k :: l else x :: qinsert k r end.
Fixpoint qsort (l : list Q) : list Q := match l with [] => [] | x :: r => qinsert x (qsort r) end.

Definition table : Type := dict Q Q.     (* {threshold: rate} or {threshold: accumulated tax} *)

(** tax.py:331-334: the loop over the remaining sorted brackets *)
Fixpoint accum_loop (b : table) (prev : Q) (ks : list Q) (acc : table) : res table :=
  match ks with
  | [] => Ok acc
  | k :: r =>
      let* rate := dget_r Qeq_bool b prev in
      let* a := dget_r Qeq_bool acc prev in
      accum_loop b k r (dset Qeq_bool acc k ((k - prev) * rate + a))
  end.
(** list.remove: first equal element *)
Fixpoint qremove (k : Q) (l : list Q) : list Q :=
  match l with [] => [] | x :: r => if Qeq_bool x k then r else x :: qremove k r end.
(** tax.py:320-334 [add_accum]: the accumulated tax table of a bracket table *)
Definition add_accum (b : table) : res table :=
  match qmin_opt (dkeys b) with
  | None => Err ValueError
  | Some prev => accum_loop b prev (qremove prev (qsort (dkeys b))) [(prev, 0)]
  end.

(** the Tax object: _tax_brackets and _accum are caches (mutable); the rest is fixed *)
Record tax : Type := {
  x_brk : dict Z table; x_acc : dict Z table;
  x_ia : Z -> option Z -> res Q;           (* inflation_adjust(target, base) *)
  x_pd : dict Z Q; x_cr : dict Z Q
}.
Definition with_tables (s : tax) b a : tax :=
  {| x_brk := b; x_acc := a; x_ia := x_ia s; x_pd := x_pd s; x_cr := x_cr s |}.
(** tax.py:310-318 *)
Definition add_brackets (s : tax) (b : table) (year : Z) : res tax :=
  let* a := add_accum b in
  Ok (with_tables s (dset Z.eqb (x_brk s) year b) (dset Z.eqb (x_acc s) year a)).
Fixpoint add_all_brackets (s : tax) (l : list (Z * table)) : res tax :=
  match l with [] => Ok s | (y, b) :: r => let* s' := add_brackets s b y in add_all_brackets s' r end.
(** tax.py:114-192 [__init__] (timings are in TimingModel.v).  Simplified: the code adds the brackets (166-167)
    before it looks at the inflation argument (169); when both are at fault the other error is raised. [None] and an empty dict are treated
    alike by the code; min() of an empty dict is a ValueError *)
Definition tax_init (brackets : dict Z table) (pd cr : dict Z Q) (ia : infl_arg) : res tax :=
  let* f := build_inflation_adjust ia in
  let* s := add_all_brackets {| x_brk := []; x_acc := []; x_ia := f; x_pd := pd; x_cr := cr |} brackets in
  let* p := match pd with
            | [] => match zminl (dkeys (x_brk s)) with Some y => Ok [(y, 0)] | None => Err ValueError end
            | _ => Ok pd end in
  let* c := match cr with
            | [] => match zminl (dkeys (x_brk s)) with Some y => Ok [(y, 1)] | None => Err ValueError end
            | _ => Ok cr end in
  Ok {| x_brk := x_brk s; x_acc := x_acc s; x_ia := x_ia s; x_pd := p; x_cr := c |}.
(** tax.py:203-207: the dict comprehension with scaled keys *)
Fixpoint scale_keys (ia : res Q) (b : list (Q * Q)) (out : table) : res table :=
  match b with
  | [] => Ok out
  | (k, r) :: l => let* f := ia in scale_keys ia l (dset Qeq_bool out (k * f) r)
  end.
(** tax.py:194-211 [tax_brackets(year)] *)
Definition tax_brackets (s : tax) (year : Z) : res (table * tax) :=
  match dget Z.eqb (x_brk s) year with
  | Some b => Ok (b, s)
  | None =>
    match nearest_year (x_brk s) year with
    | None => Err KeyError
    | Some base =>
      let* b := dget_r Z.eqb (x_brk s) base in
      let* b' := scale_keys (x_ia s year (Some base)) b [] in
      let* s' := add_brackets s b' year in
      Ok (b', s')
    end
  end.
(** tax.py:213-224 [accum(year)] *)
Definition accum (s : tax) (year : Z) : res (table * tax) :=
  match dget Z.eqb (x_acc s) year with
  | Some a => Ok (a, s)
  | None =>
    let* v := extend_inflation_adjusted (map (fun kv => (fst kv, VDict (snd kv))) (x_brk s)) (x_ia s) year in
    match v with
    | VDict b => let* s' := add_brackets s b year in
                 let* a := dget_r Z.eqb (x_acc s') year in Ok (a, s')
    | _ => Err TypeError
    end
  end.
(** tax.py:226-229, 272-274 *)
Definition personal_deduction (s : tax) (year : Z) : res Q :=
  let* v := extend_inflation_adjusted (map (fun kv => (fst kv, VScalar (snd kv))) (x_pd s)) (x_ia s) year in
  match v with VScalar q => Ok q | _ => Err TypeError end.
Definition credit_rate (s : tax) (year : Z) : res Q :=
  match nearest_year (x_cr s) year with None => Err KeyError | Some y => dget_r Z.eqb (x_cr s) y end.
(** tax.py:296-303 (same shape as rrsp.py:160-164) *)
Definition marginal_bracket (s : tax) (income : Q) (year : Z) : res (Q * tax) :=
  let* (b, s1) := tax_brackets s year in
  let* k := bracket_of b income in Ok (k, s1).
(** tax.py:305-308 *)
Definition marginal_rate (s : tax) (income : Q) (year : Z) : res (Q * tax) :=
  let* (b, s1) := tax_brackets s year in
  let* (k, s2) := marginal_bracket s1 income year in
  let* r := dget_r Qeq_bool b k in Ok (r, s2).
(** tax.py:336-382 *)
Definition tax_money (s : tax) (income : Q) (year : Z) (deduction credit : Q) : res (Q * tax) :=
  let ti := income - deduction in
  let* (b, s1) := tax_brackets s year in
  let* (k, s2) := marginal_bracket s1 ti year in
  let* rate := dget_r Qeq_bool b k in
  let* (at_, s3) := accum s2 year in
  let* a := dget_r Qeq_bool at_ k in
  let gross := a + (ti - k) * rate in
  let* cr := credit_rate s3 year in
  Ok (qmax (gross - credit * cr) 0, s3).

(** what tax.py reads of a person: taxable_income_history, tax_deduction_history, tax_credit_history *)
Record taxpayer : Type := { tp_income : dict Z Q; tp_deduction : dict Z Q; tp_credit : dict Z Q }.
(** tax.py:231-247 [deduction], 253-268 [credit] *)
Definition deduction (s : tax) (p : taxpayer) (year : Z) : res Q :=
  let* d := personal_deduction s year in
  let* x := dget_r Z.eqb (tp_deduction p) year in Ok (d + x).
Definition credit (p : taxpayer) (year : Z) : res Q := dget_r Z.eqb (tp_credit p) year.
(** tax.py:384-414 *)
Definition tax_person (s : tax) (p : taxpayer) (year : Z) (ded cred : Q) : res (Q * tax) :=
  let* income := dget_r Z.eqb (tp_income p) year in
  let* d1 := dget_r Z.eqb (tp_deduction p) year in
  let* d2 := deduction s p year in
  let* c1 := dget_r Z.eqb (tp_credit p) year in
  let* c2 := credit p year in
  tax_money s income year (d1 + d2 + ded) (c1 + c2 + cred).

(** People are numbered; [who] gives their records and [spouse] their spouse.  deduction and credit
    are dicts {person: amount}; a missing entry leaves tax_person's default 0 (tax.py:464-468). *)
Definition amount_for (d : dict nat Q) (n : nat) : Q := match dget Nat.eqb d n with Some q => q | None => 0 end.
(** tax.py:475-520: iterating over the set {person, spouse} in any order *)
Fixpoint tax_each (s : tax) (who : nat -> taxpayer) (people : list nat) (year : Z) (ded cred : dict nat Q) : res (Q * tax) :=
  match people with
  | [] => Ok (0, s)
  | n :: r =>
      let* (t, s1) := tax_person s (who n) year (amount_for ded n) (amount_for cred n) in
      let* (u, s2) := tax_each s1 who r year ded cred in Ok (t + u, s2)
  end.
(** tax.py:416-473.  [people] is a set in its iteration order; the iteration order of a set
    difference and of {person, spouse} is unknown to the program: [order] stands for it.
    [fuel] bounds the recursion (the number of people suffices). *)
Definition minus (l m : list nat) : list nat := filter (fun n => negb (existsb (Nat.eqb n) m)) l.
Fixpoint tax_people (fuel : nat) (order : list nat -> list nat) (s : tax) (who : nat -> taxpayer) (spouse : nat -> option nat)
    (people : list nat) (year : Z) (ded cred : dict nat Q) : res (Q * tax) :=
  match fuel with
  | O => match people with [] => Ok (0, s) | _ => Err StopIteration end
  | S fuel' =>
    match people with
    | [] => Ok (0, s)
    | n :: _ =>
      let alone := 
        let* (t, s1) := tax_person s (who n) year (amount_for ded n) (amount_for cred n) in
        let* (u, s2) := tax_people fuel' order s1 who spouse (order (minus people [n])) year ded cred in
        Ok (t + u, s2) in
      match spouse n with
      | Some m =>
          if existsb (Nat.eqb m) people then
            let* (t, s1) := tax_each s who (order (if Nat.eqb n m then [n] else [n; m])) year ded cred in
            let* (u, s2) := tax_people fuel' order s1 who spouse (order (minus people [n; m])) year ded cred in
            Ok (t + u, s2)
          else alone
      | None => alone
      end
    end
  end.

(** the same when [people] is a list or tuple: [people - {...}] (tax.py:457, 473) is a TypeError *)
Definition tax_people_list (s : tax) (who : nat -> taxpayer) (spouse : nat -> option nat)
    (people : list nat) (year : Z) (ded cred : dict nat Q) : res (Q * tax) :=
  match people with
  | [] => Ok (0, s)
  | n :: _ =>
      let couple := match spouse n with
                    | Some m => if existsb (Nat.eqb m) people then (if Nat.eqb n m then [n] else [n; m]) else [n]
                    | None => [n] end in
      let* _ := tax_each s who couple year ded cred in Err TypeError
  end.

(** tax.py:522-585 [__call__]: amounts of money; None stands for an omitted deduction or credit *)
Definition opt0 (o : option Q) : Q := match o with Some q => q | None => 0 end.
Definition call_money (s : tax) (income : Q) (year : Z) (ded cred : option Q) : res (Q * tax) :=
  tax_money s income year (opt0 ded) (opt0 cred).

(** set(...) of thresholds *)
Fixpoint nodup_keys (l : list Q) : list Q :=
  match l with [] => [] | x :: r => x :: filter (fun y => negb (Qeq_bool x y)) (nodup_keys r) end.
(** ** TaxMulti, tax.py:587-796: [js] are the jurisdictions (with their caches) *)
Section Multi.
  (** sum(f(tax) for tax in jurisdictions), threading the caches *)
  Fixpoint sum_over {A} (f : nat -> A -> res (Q * A)) (i : nat) (js : list A) : res (Q * list A) :=
    match js with
    | [] => Ok (0, [])
    | j :: r => let* (v, j') := f i j in let* (u, r') := sum_over f (S i) r in Ok (v + u, j' :: r')
    end.
  Fixpoint map_over {A B} (f : A -> res (B * A)) (js : list A) : res (list B * list A) :=
    match js with
    | [] => Ok ([], [])
    | j :: r => let* (v, j') := f j in let* (u, r') := map_over f r in Ok (v :: u, j' :: r')
    end.
  (** tax.py:782-790: deductions and credits are dicts {jurisdiction: amount}, default None *)
  Definition multi_call (js : list tax) (income : Q) (year : Z) (ded cred : dict nat Q) : res (Q * list tax) :=
    sum_over (fun i j => call_money j income year (dget Nat.eqb ded i) (dget Nat.eqb cred i)) 0 js.
  (** tax.py:726-730 *)
  Definition multi_marginal_rate (js : list tax) (income : Q) (year : Z) : res (Q * list tax) :=
    sum_over (fun _ j => marginal_rate j income year) 0 js.
  (** tax.py:720-724: max() of nothing is a ValueError *)
  Definition multi_marginal_bracket (js : list tax) (income : Q) (year : Z) : res (Q * list tax) :=
    let* (bs, js') := map_over (fun j => marginal_bracket j income year) js in
    match qmax_opt bs with None => Err ValueError | Some b => Ok (b, js') end.
  (** tax.py:732-743 [tax_money]: the default None is passed on explicitly and
      [taxable_income -= None] is a TypeError *)
  Definition multi_tax_money (js : list tax) (income : Q) (year : Z) (ded cred : dict nat Q) : res (Q * list tax) :=
    sum_over (fun i j => match dget Nat.eqb ded i, dget Nat.eqb cred i with
                         | Some d, Some c => tax_money j income year d c
                         | None, _ => Err TypeError
                         | Some d, None => let* _ := tax_money j income year d 0 in Err TypeError
                         end) 0 js.
  (** tax.py:669-690 [tax_brackets(year)]: [brackets] is a generator.  Line 680 consumes it, so the
      sum on line 686-689 ranges over an exhausted generator. set.union of nothing is a TypeError. *)
  Definition multi_brackets (js : list tax) (year : Z) : res (table * list tax) :=
    let* (bs, js') := map_over (fun j => tax_brackets j year) js in
    match js with
    | [] => Err TypeError
    | _ => let keys := qsort (nodup_keys (flat_map (fun b => dkeys b) bs)) in
           let remaining := @nil table in
           let* l := mapM (fun k => let* rs := mapM (fun b => match qmax_opt (filter (fun i => Qle_bool i k) (dkeys b)) with
                                                              | None => Err ValueError
                                                              | Some i => dget_r Qeq_bool b i end) remaining in
                                    Ok (k, Qsum rs)) keys in
           Ok (l, js')
    end.
  (** tax.py:692-696 [accum(year)] without a bracket: sum() of dicts is a TypeError *)
  Definition multi_accum (js : list tax) (year : Z) : res (Q * list tax) :=
    match js with [] => Ok (0, []) | j :: r => let* _ := accum j year in Err TypeError end.
  (** tax.py:702-705 [deduction]: Tax has no attribute [deductions] *)
  Definition multi_deduction (js : list tax) (p : taxpayer) (year : Z) : res Q :=
    match js with [] => Err IndexError | _ => Err AttributeError end.
End Multi.
