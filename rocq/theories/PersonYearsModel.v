(** Model of a Person (person.py) over its years: the recorded properties of PersonModel.v, read, assigned, deleted and
    recorded through the ledger (LedgerModel.v), while the attributes they are worked out from (raise_rate_callable,
    tax_treatment, retirement_date, the accounts) are changed.  A person is its present attributes and its ledger.
    Simplified: dates are years (PersonDatesModel.v has the dates), the accounts are the amounts they report (LinkModel.v and
    PersonModel.v have the accounts). *)
From Verif Require Import Base PersonModel.
From Verif Require LedgerModel.
Import LedgerModel(lstate, getp, setter, deleter, with_env).

Record living : Type := { l_params : pparams; l_led : lstate Q acct_sums }.
(** person.py:112-159; [None]: an exception *)
Definition new_person (P : pparams) (order : list nat) (y0 : Z) (gross : Q) (e : acct_sums) : option living :=
  match person_init P order y0 gross e with Some s => Some {| l_params := P; l_led := s |} | None => None end.

(** what a user does to a person *)
Inductive lop : Type :=
| Read (p : nat)                            (* person.gross_income, ... *)
| Assign (p : nat) (v : Q)                  (* person.gross_income = v, ...; recorded_property.py:67-80 *)
| Delete (p : nat)                          (* del person.gross_income, ...; recorded_property.py:94-107 *)
| SetRaise (f : Z -> option Q)              (* person.raise_rate_callable = f; person.py:251-275 *)
| SetTax (f : option (Q -> Z -> Q))         (* person.tax_treatment = f; person.py:311-319 *)
| SetRetire (y : Z)                         (* person.retirement_date = a date in y; person.py:191-222 *)
| SetAccounts (e : acct_sums)               (* the accounts report other amounts *)
| Advance.                                  (* person.next_year(); ledger/base.py:94-111 *)
Definition with_params (l : living) (P : pparams) : living := {| l_params := P; l_led := l_led l |}.
Definition with_led (l : living) (s : lstate Q acct_sums) : living := {| l_params := l_params l; l_led := s |}.
(** property reads nest at most this deep *)
Definition depth : nat := 5.
Definition do (order : list nat) (l : living) (o : lop) : option living :=
  let P := l_params l in let C := person_class P order in let s := l_led l in
  match o with
  | Read p => match getp C depth s p with Some (_, s') => Some (with_led l s') | None => None end
  | Assign p v => Some (with_led l (setter C s p v))
  | Delete p => Some (with_led l (deleter C s p))
  | SetRaise f => Some (with_params l {| pp_retire := pp_retire P; pp_raise := f; pp_tax := pp_tax P; pp_inputs := pp_inputs P |})
  | SetTax f => Some (with_params l {| pp_retire := pp_retire P; pp_raise := pp_raise P; pp_tax := f; pp_inputs := pp_inputs P |})
  | SetRetire y => Some (with_params l {| pp_retire := Some y; pp_raise := pp_raise P; pp_tax := pp_tax P; pp_inputs := pp_inputs P |})
  | SetAccounts e => Some (with_led l (with_env s e))
  | Advance => match LedgerModel.next_year C depth s with Some s' => Some (with_led l s') | None => None end
  end.
Fixpoint do_all (order : list nat) (l : living) (os : list lop) : option living :=
  match os with [] => Some l | o :: r => match do order l o with Some l' => do_all order l' r | None => None end end.
