(** Specification vocabulary for registered accounts (C29-C35, C74). *)
From Verif Require Import Base InflationModel PersonModel RegModel.

(** all accounts of the group are in year [y] *)
Definition together (group : list nat) (s : gstate) (y : Z) : Prop := forall k, In k group -> yr s k = y.
(** the room a first-advanced account [i] is to receive for year [y+1]: the user's figure if
    there is one, otherwise what the class's rule computes *)
Definition room_next (rule : nat -> gstate -> res Q) (s : gstate) (i : nat) (y : Z) (r : Q) : Prop :=
  dget Z.eqb (ra_hist (g_acct s i)) (y + 1)%Z = Some (Some r) \/
  (dget Z.eqb (ra_hist (g_acct s i)) (y + 1)%Z = None /\ rule i s = Ok r).
(** successive years; in each the group is advanced by guarded loops over some list of accounts *)
Fixpoint run_years group rule (n : nat) (ls : list (list nat)) (s : gstate) (y : Z) : res gstate :=
  match ls with
  | [] => Ok s
  | l :: r => let* s' := advance_list group rule n l s (y + 1)%Z in run_years group rule n r s' (y + 1)%Z
  end.
(** contributions to / withdrawals from the whole group this year *)
Definition group_inflows (group : list nat) (s : gstate) : Q := Qsum (map (fun k => r_inflows (g_acct s k)) group).
Definition group_outflows (group : list nat) (s : gstate) : Q := Qsum (map (fun k => r_outflows (g_acct s k)) group).
(** only account [i] has transactions *)
Definition only_active (group : list nat) (s : gstate) (i : nat) : Prop :=
  forall k, In k group -> k <> i -> ra_txns (g_acct s k) = [].
(** born on 29 February *)
Definition leap_born (d : date) : Prop := (d_m d = 2 /\ d_d d = 29)%Z.
(** [b] is the withholding bracket for an amount: the highest strictly below it, or the lowest *)
Definition is_bracket (rates : dict Q Q) (amount b : Q) : Prop :=
  In b (dkeys rates) /\
  ((b < amount /\ forall b', In b' (dkeys rates) -> b' < amount -> b' <= b) \/
   ((forall b', In b' (dkeys rates) -> ~ b' < amount) /\ forall b', In b' (dkeys rates) -> b <= b')).
(** a history of assignments to rrif_conversion_year *)
Definition run_rrif K owner y0 (h : list (option Z)) (c : option Z) : option Z :=
  fold_left (fun c v => fst (set_rrif_year K owner y0 c v)) h c.
(** [x] is the multiple of [f] nearest to [q] *)
Definition nearest_multiple (f q x : Q) : Prop :=
  exists k : Z, x == inject_Z k * f /\ qabs (x - q) <= f / 2 /\ (qabs (x - q) == f / 2 -> Z.even k = true).
(** total statutory TFSA accrual over years [lo..hi] *)
Definition accrued (acc : Z -> Q) (lo hi : Z) : Q := Qsum (map acc (zrange lo (hi + 1))).
