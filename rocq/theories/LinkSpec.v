(** Specification vocabulary for linked accounts (C26-C28). *)
From Verif Require Import Base RBase AccountModel AccountSpec LinkModel.
Open Scope R_scope.

(** does a new account's set of links mention [l]? *)
Definition uses (links : slot -> option link) (l : link) : bool :=
  existsb (fun s => match links s with Some l' => link_eqb l l' | None => false end)
          [MaxIn; MinIn; MaxOut; MinOut].

(** what a history says about one link and one account: (is the link registered, is the
    account a member of its group) *)
Definition member_step (l : link) (i : nat) (s : bool * bool) (o : lop) : bool * bool :=
  let '(reg, mem) := s in
  match o with
  | ONew j _ links _ => if uses links l then (true, if Nat.eqb i j then true else mem) else s
  | ORegister l' => if link_eqb l l' then (true, mem) else s
  | OUnregister l' => if link_eqb l l' then (false, false) else s
  | OLink l' j => if link_eqb l l' then (reg, if Nat.eqb i j then reg else mem) else s
  | OUnlink l' j => if link_eqb l l' then (reg, if Nat.eqb i j then false else mem) else s
  | _ => s
  end.
Definition member_history (l : link) (i : nat) (h : list lop) : bool * bool :=
  fold_left (member_step l i) h (false, false).

(** all amounts recorded at one time have the same sign: [c t] says which *)
Definition signs_agree (c : R -> bool) (d : dict R R) : Prop :=
  forall t v, In (t, v) d -> if c t then 0 <= v else v <= 0.

(** planned transactions of an account, from [group_transactions] *)
Definition planned (group : dict nat (dict R R)) (j : nat) : dict R R :=
  match dget Nat.eqb group j with Some d => d | None => [] end.

(** gross contributions and withdrawals of a set of accounts, recorded and planned *)
Definition gross_in (w : world) (group : dict nat (dict R R)) (js : list nat) : R :=
  Rsum (map (fun j => pos_part (txns_of w j) + pos_part (planned group j)) js).
Definition gross_out (w : world) (group : dict nat (dict R R)) (js : list nat) : R :=
  Rsum (map (fun j => neg_part (txns_of w j) + neg_part (planned group j)) js).

(** flows without infinite amounts, as numbers *)
Fixpoint finite_flows (l : list (R * er)) : res (list (R * R)) :=
  match l with
  | [] => Ok []
  | (t, Fin v) :: r => let* r' := finite_flows r in Ok ((t, v) :: r')
  | _ => Err ValueError
  end.
(** a sequence of contributions: each account named in turn contributes its current
    [max_inflows] (at the account's default timing) *)
Fixpoint contribute_all (w : world) (ids : list nat) : res world :=
  match ids with
  | [] => Ok w
  | i :: r =>
      match acct_of w i with
      | None => Err KeyError
      | Some a =>
          let* flows := linked_flows w i a MaxIn (group_order w i a MaxIn) None None None None [] in
          let* finite := finite_flows flows in
          let* w' := record_flows w i finite in
          contribute_all w' r
      end
  end.

(** a group linked by [l] for contributions, sharing the limit [lim]; so far only
    contributions have been recorded this year *)
Definition contributing (w : world) (l : link) (lim : R) (g : list nat) : Prop :=
  (exists r, rec_of w l = Some r /\ l_data r = Some (Fin lim) /\ l_group r = g) /\
  forall j, In j g -> exists a, acct_of w j = Some a /\ la_link a MaxIn = Some l /\
    timing_ok (a_timing (la_acct a)) /\ (forall t v, In (t, v) (a_txns (la_acct a)) -> 0 <= v).
