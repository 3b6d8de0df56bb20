(** Model of /repo/forecaster/canada/tax.py on top of TaxModel.v. *)
From Verif Require Import Base InflationModel RegModel TaxModel.

(** what canada/tax.py reads of a person: identity, the histories used by Tax, this year's
    taxable_income and this year's outflows of each RRSP *)
Record cperson : Type := { cp_id : Z; cp_tp : taxpayer; cp_income_now : Q; cp_rrsp_out : list Q }.
(** canada/tax.py:13-34: a jurisdiction and its tables of maxima *)
Record cjur : Type := { cj_tax : tax; cj_pension : dict Z Q; cj_spousal : dict Z Q }.

(** extend_inflation_adjusted on a scalar table *)
Definition indexed (s : tax) (t : dict Z Q) (year : Z) : res Q :=
  let* v := extend_inflation_adjusted (map (fun kv => (fst kv, VScalar (snd kv))) t) (x_ia s) year in
  match v with VScalar q => Ok q | _ => Err TypeError end.
(** canada/tax.py:64-88 *)
Definition pension_credit (j : cjur) (p : cperson) (year : Z) : res Q :=
  let* m := indexed (cj_tax j) (cj_pension j) year in
  Ok (qmin (qabs (Qsum (cp_rrsp_out p))) m).
(** canada/tax.py:90-149; [spouse] is person.spouse *)
Definition spousal_credit (j : cjur) (p : cperson) (spouse : option cperson) (year : Z) : res Q :=
  match spouse with
  | None => Ok 0
  | Some q =>
      let* m := indexed (cj_tax j) (cj_spousal j) year in
      let* ds := deduction (cj_tax j) (cp_tp q) year in
      let* dp := deduction (cj_tax j) (cp_tp p) year in
      let sn := cp_income_now q - ds in
      let pn := cp_income_now p - dp in
      if Qlt_bool pn sn then Ok 0
      else if Qeq_bool pn sn && Z.ltb (cp_id p) (cp_id q) then Ok 0
      else Ok (qmax (m - sn) 0)
  end.
(** canada/tax.py:36-62 *)
Definition cj_credit (j : cjur) (p : cperson) (spouse : option cperson) (year : Z) : res Q :=
  let* c := credit (cp_tp p) year in
  let* a := pension_credit j p year in
  let* b := spousal_credit j p spouse year in
  Ok (c + a + b).
(** tax.py:384-414 with the overridden [credit] *)
Definition cj_tax_person (j : cjur) (p : cperson) (spouse : option cperson) (year : Z) (ded cred : Q) : res (Q * tax) :=
  let* income := dget_r Z.eqb (tp_income (cp_tp p)) year in
  let* d1 := dget_r Z.eqb (tp_deduction (cp_tp p)) year in
  let* d2 := deduction (cj_tax j) (cp_tp p) year in
  let* c1 := dget_r Z.eqb (tp_credit (cp_tp p)) year in
  let* c2 := cj_credit j p spouse year in
  tax_money (cj_tax j) income year (d1 + d2 + ded) (c1 + c2 + cred).

(** canada/tax.py:187-250: the federal jurisdiction is number 0, the provincial one 1.  Returns the
    tax and the dicts [deductions] and [credits_] as they are afterwards: when the caller passed
    them, these are the caller's own objects (lines 226-233) and lines 237-244 assign into them. *)
Definition opt_set (d : dict nat Q) (n : nat) (o : option Q) : dict nat Q := match o with Some q => dset Nat.eqb d n q | None => d end.
Definition canada_call (fed prov : tax) (income : Q) (year : Z) (fd fc pd pc : option Q) (ded cred : option (dict nat Q))
  : res (Q * (dict nat Q * dict nat Q)) :=
  let d := opt_set (opt_set (match ded with Some d => d | None => [] end) 0 fd) 1 pd in
  let c := opt_set (opt_set (match cred with Some c => c | None => [] end) 0 fc) 1 pc in
  let* (t, _) := multi_call [fed; prov] income year d c in Ok (t, (d, c)).
