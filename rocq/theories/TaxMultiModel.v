(** Model of tax on people in several jurisdictions: /repo/forecaster/tax.py [Tax.__call__],
    [TaxMulti] and /repo/forecaster/canada/tax.py [TaxCanada], on top of TaxModel.v and
    TaxCanadaModel.v.  TaxModel.v has the money-only calls of TaxMulti. *)
From Verif Require Import Base InflationModel RegModel TaxModel TaxCanadaModel CanadaConstsModel.

(** A jurisdiction is a plain Tax or a TaxCanadaJurisdiction (canada/tax.py:10-34) with its tables
    of pension and spousal maxima. *)
Inductive jkind : Type := Plain | Canadian (pension spousal : dict Z Q).
Record jur : Type := { j_tax : tax; j_kind : jkind }.
Definition with_tax (j : jur) (s : tax) : jur := {| j_tax := s; j_kind := j_kind j |}.

(** What a caller may pass as [deduction] or [credit] for one jurisdiction: nothing (None), a number,
    or a dict {person: amount}. *)
Inductive amounts : Type := Nothing | Flat (q : Q) | Each (d : dict nat Q).
(** What may be taxed (tax.py:578-585): money, a person, a set of people in its iteration order, or a
    list or tuple of people. *)
Inductive payer : Type := Money (q : Q) | One (n : nat) | Group (people : list nat) | Listed (people : list nat).

Section People.
(** People are numbered; [who] gives their records and [spouse] their spouse.  [order] is the
    unknown iteration order of a set difference and of {person, spouse}. *)
Variables (who : nat -> cperson) (spouse : nat -> option nat) (order : list nat -> list nat).

(** tax.py:253-268 and its override canada/tax.py:36-62 *)
Definition jcredit (j : jur) (n : nat) (year : Z) : res Q :=
  match j_kind j with
  | Plain => credit (cp_tp (who n)) year
  | Canadian p s => cj_credit {| cj_tax := j_tax j; cj_pension := p; cj_spousal := s |} (who n) (option_map who (spouse n)) year
  end.
(** a number is needed in [... + deduction] *)
Definition number (a : amounts) : res Q := match a with Flat q => Ok q | _ => Err TypeError end.
(** tax.py:384-414 [tax_person(person, year, deduction, credit)] *)
Definition jperson (j : jur) (n : nat) (year : Z) (ded cred : amounts) : res (Q * jur) :=
  let p := cp_tp (who n) in
  let* income := dget_r Z.eqb (tp_income p) year in
  let* d1 := dget_r Z.eqb (tp_deduction p) year in
  let* d2 := deduction (j_tax j) p year in
  let* d3 := number ded in
  let* c1 := dget_r Z.eqb (tp_credit p) year in
  let* c2 := jcredit j n year in
  let* c3 := number cred in
  let* (t, s) := tax_money (j_tax j) income year (d1 + d2 + d3) (c1 + c2 + c3) in Ok (t, with_tax j s).
(** tax.py:504-507, 434-437: None becomes {}; [person in 5] is a TypeError *)
Definition per_person (a : amounts) : res (dict nat Q) :=
  match a with Nothing => Ok [] | Each d => Ok d | Flat _ => Err TypeError end.
(** tax.py:475-520 [tax_spouses], for an iterable of people (the loop); a person without an entry
    gets tax_person's default 0 *)
Fixpoint jeach (j : jur) (people : list nat) (year : Z) (ded cred : dict nat Q) : res (Q * jur) :=
  match people with
  | [] => Ok (0, j)
  | n :: r =>
      let* (t, j1) := jperson j n year (Flat (amount_for ded n)) (Flat (amount_for cred n)) in
      let* (u, j2) := jeach j1 r year ded cred in Ok (t + u, j2)
  end.
Definition jspouses (j : jur) (people : list nat) (year : Z) (ded cred : amounts) : res (Q * jur) :=
  match people with
  | [] => Ok (0, j)
  | _ => let* d := per_person ded in let* c := per_person cred in jeach j people year d c
  end.
(** tax.py:440-473: the recursion of [tax_people]; [fuel] bounds it (the number of people suffices) *)
Fixpoint jgroup (fuel : nat) (j : jur) (people : list nat) (year : Z) (ded cred : dict nat Q) : res (Q * jur) :=
  match fuel with
  | O => match people with [] => Ok (0, j) | _ => Err StopIteration end
  | S fuel' =>
    match people with
    | [] => Ok (0, j)
    | n :: _ =>
      let alone :=
        let* (t, j1) := jperson j n year (Flat (amount_for ded n)) (Flat (amount_for cred n)) in
        let* (u, j2) := jgroup fuel' j1 (order (minus people [n])) year ded cred in Ok (t + u, j2) in
      match spouse n with
      | Some m =>
          if existsb (Nat.eqb m) people then
            let* (t, j1) := jeach j (order (if Nat.eqb n m then [n] else [n; m])) year ded cred in
            let* (u, j2) := jgroup fuel' j1 (order (minus people [n; m])) year ded cred in Ok (t + u, j2)
          else alone
      | None => alone
      end
    end
  end.
(** tax.py:416-473 [tax_people] *)
Definition jpeople (j : jur) (people : list nat) (year : Z) (ded cred : amounts) : res (Q * jur) :=
  match people with
  | [] => Ok (0, j)
  | _ => let* d := per_person ded in let* c := per_person cred in jgroup (List.length people) j people year d c
  end.
(** the same for a list or tuple: [people - {...}] (tax.py:457, 473) is a TypeError, raised after the
    first person or couple has been taxed *)
Definition jlist (j : jur) (people : list nat) (year : Z) (ded cred : amounts) : res (Q * jur) :=
  match people with
  | [] => Ok (0, j)
  | n :: _ =>
      let couple := match spouse n with
                    | Some m => if existsb (Nat.eqb m) people then (if Nat.eqb n m then [n] else [n; m]) else [n]
                    | None => [n] end in
      let* d := per_person ded in let* c := per_person cred in
      let* _ := jeach j (order couple) year d c in Err TypeError
  end.
(** tax.py:336-382 [tax_money] with whatever was passed: [income -= {...}] and [{...} * rate] are
    TypeErrors, the first raised at once and the second after the brackets were looked up *)
Definition jmoney (j : jur) (x : Q) (year : Z) (ded cred : amounts) : res (Q * jur) :=
  let* d := number ded in
  match cred with
  | Flat c => let* (t, s) := tax_money (j_tax j) x year d c in Ok (t, with_tax j s)
  | _ => let* _ := tax_money (j_tax j) x year d 0 in Err TypeError
  end.
(** tax.py:571-575: None is not passed on, so the callee's default 0 applies *)
Definition given (a : amounts) : amounts := match a with Nothing => Flat 0 | _ => a end.
(** tax.py:522-585 [Tax.__call__] ([int(year)] is the identity on whole years) *)
Definition jcall (j : jur) (x : payer) (year : Z) (ded cred : amounts) : res (Q * jur) :=
  match x with
  | Money q => jmoney j q year (given ded) (given cred)
  | One n => jperson j n year (given ded) (given cred)
  | Group l => jpeople j l year ded cred
  | Listed l => jlist j l year ded cred
  end.

(** tax.py:792-796 [make_defaultdict]: [deductions[tax]], None where there is no entry *)
Definition entry (d : dict nat amounts) (i : nat) : amounts := match dget Nat.eqb d i with Some a => a | None => Nothing end.
(** tax.py:782-790 [TaxMulti.__call__] *)
Definition mcall (js : list jur) (x : payer) (year : Z) (ded cred : dict nat amounts) : res (Q * list jur) :=
  sum_over (fun i j => jcall j x year (entry ded i) (entry cred i)) 0 js.
(** tax.py:745-756 [TaxMulti.tax_person]: a missing entry is passed on as None *)
Definition mperson (js : list jur) (n : nat) (year : Z) (ded cred : dict nat amounts) : res (Q * list jur) :=
  sum_over (fun i j => jperson j n year (entry ded i) (entry cred i)) 0 js.
(** tax.py:758-768 [TaxMulti.tax_people], [people] being a set *)
Definition mpeople (js : list jur) (people : list nat) (year : Z) (ded cred : dict nat amounts) : res (Q * list jur) :=
  sum_over (fun i j => jpeople j people year (entry ded i) (entry cred i)) 0 js.
(** tax.py:770-780 [TaxMulti.tax_spouses] *)
Definition mspouses (js : list jur) (people : list nat) (year : Z) (ded cred : dict nat amounts) : res (Q * list jur) :=
  sum_over (fun i j => jspouses j people year (entry ded i) (entry cred i)) 0 js.
(** tax.py:194-211, 669-675 [tax_brackets(year, bracket)] *)
Definition mbracket (js : list jur) (year : Z) (k : Q) : res (Q * list jur) :=
  sum_over (fun _ j => let* (b, s) := tax_brackets (j_tax j) year in let* r := dget_r Qeq_bool b k in Ok (r, with_tax j s)) 0 js.
(** tax.py:213-224, 692-696 [accum(year, bracket)] *)
Definition maccum (js : list jur) (year : Z) (k : Q) : res (Q * list jur) :=
  sum_over (fun _ j => let* (b, s) := accum (j_tax j) year in let* r := dget_r Qeq_bool b k in Ok (r, with_tax j s)) 0 js.
(** tax.py:698-700, 716-718, 707-714: the first jurisdiction's alone ([deduction] is not used by
    either [credit] method) *)
Definition mdeduction (js : list jur) (year : Z) : res Q := match js with [] => Err IndexError | j :: _ => personal_deduction (j_tax j) year end.
Definition mrate (js : list jur) (year : Z) : res Q := match js with [] => Err IndexError | j :: _ => credit_rate (j_tax j) year end.
Definition mcredit (js : list jur) (n : nat) (year : Z) : res Q := match js with [] => Err IndexError | j :: _ => jcredit j n year end.

(** canada/tax.py:187-250 [TaxCanada.__call__]; the federal jurisdiction is number 0, the provincial
    one 1.  (That the caller's dicts are written to is in TaxCanadaModel.v.) *)
Definition put (d : dict nat amounts) (i : nat) (a : amounts) : dict nat amounts := match a with Nothing => d | _ => dset Nat.eqb d i a end.
Definition canada (fed prov : jur) (x : payer) (year : Z) (fd fc pd pc : amounts) (ded cred : option (dict nat amounts)) : res (Q * list jur) :=
  let d := match ded with Some d => d | None => [] end in
  let c := match cred with Some c => c | None => [] end in
  mcall [fed; prov] x year (put (put d 0 fd) 1 pd) (put (put c 0 fc) 1 pc).
End People.

(** canada/constants.py:139-142, 168-171 (the same values are in data/canada.constants.json) *)
Definition TAX_PENSION_CREDIT : dict string (dict Z Q) := [("Federal"%string, [(2017%Z, 2000)]); ("BC"%string, [(2017%Z, 1000)])].
Definition TAX_SPOUSAL_AMOUNT : dict string (dict Z Q) := [("Federal"%string, [(2017%Z, 11635)]); ("BC"%string, [(2017%Z, 9614)])].
(** canada/tax.py:13-34 with the shipped constants.  Simplified: the pension and spousal tables are
    read at construction; the code reads them when a credit is computed. *)
Definition cjur_init (ia : infl_arg) (name : string) : res jur :=
  let* s := jurisdiction_init ia name in
  let* p := dget_r String.eqb TAX_PENSION_CREDIT name in
  let* m := dget_r String.eqb TAX_SPOUSAL_AMOUNT name in
  Ok {| j_tax := s; j_kind := Canadian p m |}.
(** canada/tax.py:162-185 *)
Definition canada_jurs (ia : infl_arg) (province : string) : res (jur * jur) :=
  let* f := cjur_init ia "Federal"%string in
  let* p := cjur_init ia province in Ok (f, p).
