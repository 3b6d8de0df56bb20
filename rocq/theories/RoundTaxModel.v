(** Model of /repo/forecaster/tax.py as it is executed: every +, - and * is followed by the rounding [rnd] of the number type in
    use (floats round to 53 bits, Decimals to 28 digits).  Everything else is as in TaxModel.v, which computes exactly.
    Simplified: no overflow, NaN or signed zero; the table of the year is given (TaxModel.v has the choice of table and the caches,
    which never round by themselves). *)
From Verif Require Import Base RBase.
Open Scope R_scope.

Section Rounding.
  Variable rnd : R -> R.
  Notation table := (list (R * R)).

  (** sorted(keys): insertion sort *)
  Fixpoint rinsert (k : R) (l : list R) : list R :=
    match l with [] => [k] | x :: r => if Rleb k x then k :: l else x :: rinsert k r end.
  Fixpoint rsort (l : list R) : list R := match l with [] => [] | x :: r => rinsert x (rsort r) end.
  (** list.remove: first equal element *)
  Fixpoint rremove (k : R) (l : list R) : list R :=
    match l with [] => [] | x :: r => if Reqb x k then r else x :: rremove k r end.
  (** min(dict), max(iterable, default=d) *)
  Definition rmin_key (b : table) : res R :=
    match dkeys b with [] => Err ValueError | k :: r => Ok (fold_left Rmin r k) end.
  Definition rmax_or (d : R) (l : list R) : R := match l with [] => d | k :: r => fold_left Rmax r k end.

  (** tax.py:203-207: the thresholds of another year, [f] the inflation adjustment.  Thresholds that round to the same number
      become one. *)
  Fixpoint scale_keys (f : R) (b out : table) : table :=
    match b with [] => out | (k, r) :: l => scale_keys f l (dset Reqb out (rnd (k * f)) r) end.
  (** tax.py:331-334 *)
  Fixpoint accum_loop (b : table) (prev : R) (ks : list R) (acc : table) : res table :=
    match ks with
    | [] => Ok acc
    | k :: r =>
        let* rate := dget_r Reqb b prev in
        let* a := dget_r Reqb acc prev in
        accum_loop b k r (dset Reqb acc k (rnd (rnd (rnd (k - prev) * rate) + a)))
    end.
  (** tax.py:320-334 [add_accum] *)
  Definition add_accum (b : table) : res table :=
    let* prev := rmin_key b in
    accum_loop b prev (rremove prev (rsort (dkeys b))) [(prev, 0)].
  (** tax.py:296-303 [marginal_bracket] *)
  Definition marginal_bracket (b : table) (income : R) : res R :=
    let* m := rmin_key b in
    Ok (rmax_or m (filter (fun k => Rltb k income) (dkeys b))).
  (** tax.py:336-382 [tax_money]; [b]: the brackets of the year, [cr]: its credit rate *)
  Definition tax_money (b : table) (cr income deduction credit : R) : res R :=
    let ti := rnd (income - deduction) in
    let* k := marginal_bracket b ti in
    let* rate := dget_r Reqb b k in
    let* acc := add_accum b in
    let* a := dget_r Reqb acc k in
    let gross := rnd (a + rnd (rnd (ti - k) * rate)) in
    Ok (Rmax (rnd (gross - rnd (credit * cr))) 0).
  (** what is known of a taxpayer: taxable income, the deductions and credits of the histories, and those given to the call *)
  Record earner : Type := { e_income : R; e_deduction : R; e_credit : R; e_more_deduction : R; e_more_credit : R }.
  (** tax.py:384-414 [tax_person]; [pd]: the personal deduction, part of [deduction] (lines 231-247); for [credit] see 253-268 *)
  Definition tax_person (b : table) (cr pd : R) (p : earner) : res R :=
    tax_money b cr (e_income p)
      (rnd (rnd (e_deduction p + rnd (pd + e_deduction p)) + e_more_deduction p))
      (rnd (rnd (e_credit p + e_credit p) + e_more_credit p)).
  (** [tax = 0; for ...: tax += ...] and Python's [sum]: tax.py:475-520 [tax_spouses], 758-768 TaxMulti's [tax_people] *)
  Fixpoint add_up (s : R) (l : list (res R)) : res R :=
    match l with [] => Ok s | t :: r => let* x := t in add_up (rnd (s + x)) r end.
  (** tax.py:416-473 [tax_people]: [groups] are the single people and couples in the order the recursion takes them (TaxModel.v
      has how it finds them) *)
  Fixpoint tax_people (b : table) (cr pd : R) (groups : list (list earner)) : res R :=
    match groups with
    | [] => Ok 0
    | g :: r =>
        let* t := match g with [p] => tax_person b cr pd p | _ => add_up 0 (map (tax_person b cr pd) g) end in
        let* u := tax_people b cr pd r in Ok (rnd (t + u))
    end.
  (** a jurisdiction in a year: brackets, credit rate, personal deduction; each takes the people in its own order *)
  Definition tax_multi (js : list (table * R * R * list (list earner))) : res R :=
    add_up 0 (map (fun j => let '(b, cr, pd, groups) := j in tax_people b cr pd groups) js).
End Rounding.
