(** Model of /repo/forecaster/person.py ([Person]) and the owner property of
    accounts/base.py. *)
From Verif Require Import Base LedgerModel.

(** ** Dates (datetime.datetime at day precision; proleptic Gregorian calendar).  Times of day
    are dropped: person.py only compares dates that were filled in from the same default. *)
Record date : Type := { d_y : Z; d_m : Z; d_d : Z }.
Definition leap (y : Z) : bool :=
  andb (Z.eqb (y mod 4) 0) (orb (negb (Z.eqb (y mod 100) 0)) (Z.eqb (y mod 400) 0)).
Definition days_in_month (y m : Z) : Z :=
  if Z.eqb m 2 then (if leap y then 29 else 28)%Z
  else if orb (Z.eqb m 4) (orb (Z.eqb m 6) (orb (Z.eqb m 9) (Z.eqb m 11))) then 30%Z else 31%Z.
Definition valid_date (d : date) : Prop :=
  (1 <= d_m d <= 12 /\ 1 <= d_d d <= days_in_month (d_y d) (d_m d))%Z.
(** datetime comparison *)
Definition date_lt (a b : date) : bool :=
  orb (Z.ltb (d_y a) (d_y b))
      (andb (Z.eqb (d_y a) (d_y b))
            (orb (Z.ltb (d_m a) (d_m b)) (andb (Z.eqb (d_m a) (d_m b)) (Z.ltb (d_d a) (d_d b))))).
(** [datetime.replace(year)]: ValueError if the day does not exist *)
Definition replace_year (d : date) (y : Z) : res date :=
  if Z.leb (d_d d) (days_in_month y (d_m d)) then Ok {| d_y := y; d_m := d_m d; d_d := d_d d |}
  else Err ValueError.
(** dateutil's [parse(str(year), default=birth)]: month and day come from the default, the
    day clamped to the end of the month (documented behaviour of dateutil; four-digit years) *)
Definition parse_year (y : Z) (default : date) : date :=
  {| d_y := y; d_m := d_m default; d_d := Z.min (d_d default) (days_in_month y (d_m default)) |}.

(** person.py:357-392 [age], for a datetime argument *)
Definition age_at (birth date_ : date) : res Z :=
  let age := (d_y date_ - d_y birth)%Z in
  let* r := replace_year date_ (d_y birth) in
  Ok (if date_lt r birth then (age - 1)%Z else age).
(** person.py:379-381: a year argument is parsed first *)
Definition age_in_year (birth : date) (y : Z) : res Z := age_at birth (parse_year y birth).

(** person.py:191-222 the [retirement_date] setter (argument already a datetime, or None) *)
Definition check_retirement (birth : date) (v : option date) : res date :=
  match v with
  | None => Err NotImplementedError
  | Some d => if date_lt d birth then Err ValueError else Ok d
  end.

(** ** Spouses: [sp i] is person [i]'s [_spouse] *)
Definition upd_fn {A} (f : nat -> A) (i : nat) (v : A) : nat -> A := fun j => if Nat.eqb j i then v else f j.
(** person.py:282-304 the [spouse] setter.  Only the person being assigned is unlinked from a
    previous partner; the new spouse's previous partner is not. *)
Definition set_spouse (sp : nat -> option nat) (i : nat) (v : option nat) : nat -> option nat :=
  let sp1 := match sp i with Some j => upd_fn sp j None | None => sp end in
  let sp2 := match v with Some k => upd_fn sp1 k (Some i) | None => sp1 end in
  upd_fn sp2 i v.

(** ** Owners (accounts/base.py:177-197).  [os_owner a] is the account's [_owner],
    [os_accts p] the person's [accounts] set. *)
Record ostate : Type := { os_owner : nat -> option nat; os_accts : nat -> list nat }.
Inductive oval : Type := VNone | VPerson (p : nat) | VNotAPerson.
Definition remove_id (a : nat) (l : list nat) : list nat := filter (fun b => negb (Nat.eqb a b)) l.
Definition add_id (a : nat) (l : list nat) : list nat := if existsb (Nat.eqb a) l then l else l ++ [a].
(** accounts/base.py:182-197 the setter; returns the state after the call (also when it raises)
    and the exception, if any.  [set.remove] raises KeyError for a non-member. *)
Definition set_owner (s : ostate) (a : nat) (v : oval) : ostate * option err :=
  match os_owner s a with
  | Some p =>
      if existsb (Nat.eqb a) (os_accts s p) then
        let s1 := {| os_owner := os_owner s; os_accts := upd_fn (os_accts s) p (remove_id a (os_accts s p)) |} in
        match v with
        | VNone => ({| os_owner := upd_fn (os_owner s1) a None; os_accts := os_accts s1 |}, None)
        | VNotAPerson => (s1, Some TypeError)
        | VPerson q => ({| os_owner := upd_fn (os_owner s1) a (Some q);
                           os_accts := upd_fn (os_accts s1) q (add_id a (os_accts s1 q)) |}, None)
        end
      else (s, Some KeyError)
  | None =>
      match v with
      | VNone => ({| os_owner := upd_fn (os_owner s) a None; os_accts := os_accts s |}, None)
      | VNotAPerson => (s, Some TypeError)
      | VPerson q => ({| os_owner := upd_fn (os_owner s) a (Some q);
                         os_accts := upd_fn (os_accts s) q (add_id a (os_accts s q)) |}, None)
      end
  end.

(** ** Income: [Person] as a ledger class (LedgerModel.v).  Property numbers: *)
Definition GROSS : nat := 0. Definition NET : nat := 1. Definition RAISE : nat := 2.
Definition WITHHELD : nat := 3. Definition DEDUCTION : nat := 4. Definition CREDIT : nat := 5.
Definition TAXABLE : nat := 6.
(** the part of the outside world these getters read: the accounts' tax attributes this year *)
Record acct_sums : Type := { s_taxable : list Q; s_deduction : list Q; s_credit : list Q }.
(** what distinguishes one person's income from another's *)
Record pparams : Type := {
  pp_retire : option Z;                        (* retirement_date.year *)
  pp_raise : Z -> option Q;                    (* raise_rate_callable; None = KeyError *)
  pp_tax : option (Q -> Z -> Q);               (* tax_treatment *)
  pp_inputs : nat -> Z -> option Q
}.
(** person.py:325-421 *)
Definition person_fget (P : pparams) (p : nat) : prog Q acct_sums :=
  if Nat.eqb p GROSS then
    Year (fun y =>
      if match pp_retire P with Some r => Z.ltb r y | None => false end then Ret 0
      else PastAt GROSS 1 (fun o => match o with
             | None => Raise
             | Some g => Get RAISE (fun r => Ret (g * (1 + r))) end))
  else if Nat.eqb p NET then Get GROSS (fun g => Get WITHHELD (fun t => Ret (g - t)))
  else if Nat.eqb p RAISE then Year (fun y => match pp_raise P y with Some r => Ret r | None => Raise end)
  else if Nat.eqb p WITHHELD then
    match pp_tax P with
    | Some f => Get GROSS (fun g => Year (fun y => Ret (f g y)))
    | None => Ret 0
    end
  else if Nat.eqb p DEDUCTION then EnvRd (fun e => Ret (Qsum (s_deduction e)))
  else if Nat.eqb p CREDIT then EnvRd (fun e => Ret (Qsum (s_credit e)))
  else if Nat.eqb p TAXABLE then Get GROSS (fun g => EnvRd (fun e => Ret (g + Qsum (s_taxable e))))
  else Raise.
Definition person_cached (p : nat) : bool :=
  existsb (Nat.eqb p) [GROSS; NET; RAISE; DEDUCTION; CREDIT].
(** [order]: the arbitrary iteration order of the set of recorded properties *)
Definition person_class (P : pparams) (order : list nat) : lclass Q acct_sums :=
  {| props := order; cached := person_cached; fget := person_fget P;
     fset := fun _ => None; fdel := fun _ => None; inputs := pp_inputs P |}.
(** person.py:151-154: initial values *)
Definition person_init (P : pparams) (order : list nat) (y0 : Z) (gross : Q) (e : acct_sums)
    : option (lstate Q acct_sums) :=
  let C := person_class P order in
  let s := setter C (init C y0 e) GROSS gross in
  match getp C 5 s GROSS with
  | None => None
  | Some (g, s) => match getp C 5 s WITHHELD with
                   | None => None
                   | Some (t, s) => Some (setter C s NET (g - t))
                   end
  end.
