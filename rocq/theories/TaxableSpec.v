(** Specification vocabulary for taxable accounts (C36, C37, C75). *)
From Verif Require Import Base RBase GrowthModel AccountModel TaxableModel.
From Coq Require Import Permutation Sorted.
Open Scope R_scope.

(** the capital gain and closing cost base computed from what is recorded in the account now *)
Definition computed (s : tacct) (gain acb' : R) : Prop :=
  exists acb, read_acb s = Ok acb /\
    gain_loop (fun t => balance_at_time (t_acct s) t None) (rsort (a_txns (t_acct s))) 0 acb = Ok (gain, acb').
(** operations other than removing transactions *)
Definition no_removal (o : top) : Prop := match o with TDel _ | TClear => False | _ => True end.
(** ACB(y+1) = ACB(y) + transactions(y) + gain(y), as recorded *)
Definition conserved_in (s : tacct) (y : Z) : Prop :=
  exists a a' g d, dget Z.eqb (t_acb s) y = Some a /\ dget Z.eqb (t_acb s) (y + 1)%Z = Some a' /\
    dget Z.eqb (t_gain s) y = Some g /\ dget Z.eqb (t_txns s) y = Some d /\ a' = a + Rsum (dvals d) + g.
(** every withdrawal takes at most what is there *)
Definition covered (bal : R -> R) (l : list (R * R)) : Prop :=
  forall t v, In (t, v) l -> v < 0 -> 0 < bal t - v /\ - v <= bal t - v.
(** Capital gains accounting, independent of the code: money put in adds to the cost base; money
    taken out of a balance [B] realises the fraction (withdrawn / B) of the accrued gain B - cost base
    and removes the same fraction of the cost base.  [bal t] is the balance right after the
    transaction at time [t].  [realises bal l acb gain acb']: working through [l] in order from cost
    base [acb] realises [gain] and leaves [acb']. *)
Inductive realises (bal : R -> R) : list (R * R) -> R -> R -> R -> Prop :=
| RNil acb : realises bal [] acb 0 acb
| RIn t v r acb gain acb' : 0 <= v -> realises bal r (acb + v) gain acb' -> realises bal ((t, v) :: r) acb gain acb'
| ROut t v r acb B gain acb' : v < 0 -> B = bal t - v -> B <> 0 ->
    realises bal r (acb - (- v / B) * acb) gain acb' ->
    realises bal ((t, v) :: r) acb ((- v / B) * (B - acb) + gain) acb'.
(** the transactions in the order in which they happen *)
Definition chronological (d l : list (R * R)) : Prop := Permutation d l /\ StronglySorted (fun a b => fst a <= fst b) l.
