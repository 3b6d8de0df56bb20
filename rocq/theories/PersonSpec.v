(** Specification vocabulary for people (C47-C49, C73). *)
From Verif Require Import Base LedgerModel PersonModel.

(** marriage is a symmetric relation without self-marriage *)
Definition symmetric (sp : nat -> option nat) : Prop := forall i j, sp i = Some j -> sp j = Some i.
(** a sequence of assignments [person.spouse = value] *)
Definition run_spouses (h : list (nat * option nat)) (sp : nat -> option nat) : nat -> option nat :=
  fold_left (fun sp iv => set_spouse sp (fst iv) (snd iv)) h sp.
(** an assignment is orderly if the new spouse is single or already this person's partner *)
Definition orderly (sp : nat -> option nat) (i : nat) (v : option nat) : Prop :=
  match v with Some k => sp k = None \/ sp k = Some i | None => True end.
Fixpoint all_orderly (sp : nat -> option nat) (h : list (nat * option nat)) : Prop :=
  match h with
  | [] => True
  | (i, v) :: r => orderly sp i v /\ all_orderly (set_spouse sp i v) r
  end.

(** accounts and owners agree *)
Definition owners_agree (s : ostate) : Prop :=
  forall a p, In a (os_accts s p) <-> os_owner s a = Some p.
Definition run_owners (h : list (nat * oval)) (s : ostate) : ostate :=
  fold_left (fun s av => fst (set_owner s (fst av) (snd av))) h s.

(** what a person's raise, gross income, tax withheld and net income in each year should be *)
Section Income.
  Context (P : pparams) (y0 : Z) (gross : Q).
  Definition or_input (p : nat) (y : Z) (v : Q) : Q := match pp_inputs P p y with Some i => i | None => v end.
  Definition raise_in (y : Z) : Q := or_input RAISE y (match pp_raise P y with Some r => r | None => 0 end).
  Definition retired_in (y : Z) : bool := match pp_retire P with Some r => Z.ltb r y | None => false end.
  (** gross income [k] years after the first *)
  Fixpoint gross_after (k : nat) : Q :=
    let y := (y0 + Z.of_nat k)%Z in
    or_input GROSS y
      (match k with
       | O => gross
       | S k' => if retired_in y then 0 else gross_after k' * (1 + raise_in y)
       end).
  Definition gross_in (y : Z) : Q := gross_after (Z.to_nat (y - y0)).
  Definition withheld_in (y : Z) : Q :=
    or_input WITHHELD y (match pp_tax P with Some f => f (gross_in y) y | None => 0 end).
  Definition net_in (y : Z) : Q := or_input NET y (gross_in y - withheld_in y).
End Income.
(** public operations that do not themselves change this person's income: everything except
    assigning or deleting the four income properties and clearing the cache *)
Definition leaves_income (o : op Q acct_sums) : Prop :=
  match o with
  | OSet p _ | ODel p => ~ In p [GROSS; NET; RAISE; WITHHELD]
  | OClear => False
  | _ => True
  end.
