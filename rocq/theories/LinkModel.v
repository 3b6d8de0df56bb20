(** Model of /repo/forecaster/accounts/link.py ([AccountLink], [LinkRecord]) and
    accounts/linked_limit.py ([LinkedLimitAccount]).
    Accounts and owners are identified by numbers (Python object identity); the owners' [data]
    dicts are one map from (owner, token) to the shared record. *)
From Verif Require Import Base RBase GrowthModel AccountModel.
Open Scope R_scope.

(** link.py:7 [LinkTuple]; equality as in link.py:184-193 *)
Definition link : Type := (nat * string)%type.
Definition link_eqb (a b : link) : bool := andb (Nat.eqb (fst a) (fst b)) (String.eqb (snd a) (snd b)).

(** link.py:9-15 [LinkRecord]; [l_data = None] is Python's None.  Data is restricted to
    (possibly infinite) limits, the only use made of it by linked_limit.py. *)
Record lrec : Type := { l_group : list nat; l_data : option er }.

(** the four kinds of limit of linked_limit.py:74-81 *)
Inductive slot : Set := MaxIn | MinIn | MaxOut | MinOut.
(** linked_limit.py:61-81: a [LinkedLimitAccount] is an account plus four optional links *)
Record lacct : Type := { la_acct : account; la_link : slot -> option link }.

Record world : Type := { w_data : dict link lrec; w_accts : dict nat lacct }.

Definition rec_of (w : world) (l : link) : option lrec := dget link_eqb (w_data w) l.
Definition acct_of (w : world) (i : nat) : option lacct := dget Nat.eqb (w_accts w) i.
Definition set_rec (w : world) (l : link) (r : lrec) : world :=
  {| w_data := dset link_eqb (w_data w) l r; w_accts := w_accts w |}.
Definition set_acct (w : world) (i : nat) (a : lacct) : world :=
  {| w_data := w_data w; w_accts := dset Nat.eqb (w_accts w) i a |}.

(** link.py:134-136 [is_registered] *)
Definition is_registered (w : world) (l : link) : bool := dmem link_eqb (w_data w) l.
(** link.py:138-149 [register] with a [default_factory] that returns [dflt] *)
Definition register (w : world) (l : link) (dflt : option er) : world :=
  if is_registered w l then w else set_rec w l {| l_group := []; l_data := dflt |}.
(** link.py:151-158 [unregister] *)
Definition unregister (w : world) (l : link) : world :=
  if is_registered w l
  then {| w_data := ddel link_eqb (w_data w) l; w_accts := w_accts w |} else w.
(** link.py:166-173 [link_account]: [set.add] *)
Definition link_account (w : world) (l : link) (i : nat) : res world :=
  match rec_of w l with
  | None => Err KeyError
  | Some r => Ok (if existsb (Nat.eqb i) (l_group r) then w
                  else set_rec w l {| l_group := l_group r ++ [i]; l_data := l_data r |})
  end.
(** link.py:175-179 [unlink_account]: [set.remove] raises KeyError for a non-member;
    [self.group] is None (AttributeError) if the link is not registered *)
Definition unlink_account (w : world) (l : link) (i : nat) : res world :=
  match rec_of w l with
  | None => Err AttributeError
  | Some r => if existsb (Nat.eqb i) (l_group r)
              then Ok (set_rec w l {| l_group := filter (fun j => negb (Nat.eqb i j)) (l_group r);
                                      l_data := l_data r |})
              else Err KeyError
  end.
(** link.py:90-96 the [data] getter: None if unregistered *)
Definition link_data (w : world) (l : link) : option er :=
  match rec_of w l with Some r => l_data r | None => None end.
(** link.py:98-104 the [data] setter *)
Definition set_link_data (w : world) (l : link) (v : option er) : res world :=
  match rec_of w l with
  | Some r => Ok (set_rec w l {| l_group := l_group r; l_data := v |})
  | None => Err AttributeError
  end.

(** linked_limit.py:162-196 [_process_link] for a (owner, token) tuple: constructing the
    [AccountLink] registers it (link.py:86-88) with default data None *)
Definition process_link (w : world) (i : nat) (l : option link) (limit : option er) : res world :=
  match l with
  | None => Ok w
  | Some l =>
      let* w := link_account (register w l None) l i in
      match limit with Some _ => set_link_data w l limit | None => Ok w end
  end.

(** linked_limit.py:61-81 [__init__]: [i] is the new object's identity *)
Definition new_account (w : world) (i : nat) (a : account) (links : slot -> option link)
    (limits : slot -> option er) : res world :=
  let* w := process_link w i (links MaxIn) (limits MaxIn) in
  let* w := process_link w i (links MinIn) (limits MinIn) in
  let* w := process_link w i (links MaxOut) (limits MaxOut) in
  let* w := process_link w i (links MinOut) (limits MinOut) in
  Ok (set_acct w i {| la_acct := a; la_link := links |}).

(** accounts/base.py:408-455: the superclass limits *)
Definition super_limit (s : slot) : er :=
  match s with MaxIn => max_in account_limits | MinIn => min_in account_limits
             | MaxOut => max_out account_limits | MinOut => min_out account_limits end.
(** linked_limit.py:83-125 getters via 127-142 [_get_limit] *)
Definition get_limit (w : world) (a : lacct) (s : slot) : option er :=
  match la_link a s with Some l => link_data w l | None => Some (super_limit s) end.
(** which link each setter writes: linked_limit.py:92, 103, 114 and 125.  The two outflow
    setters pass the *inflow* links. *)
Definition setter_slot (s : slot) : slot :=
  match s with MaxIn => MaxIn | MinIn => MinIn | MaxOut => MaxIn | MinOut => MinIn end.
(** linked_limit.py:89-125 setters via 144-160 [_set_limit] *)
Definition set_limit (w : world) (a : lacct) (s : slot) (v : er) : res world :=
  match la_link a (setter_slot s) with
  | Some l => set_link_data w l (Some v)
  | None => Err AttributeError
  end.

(** the transactions already recorded against an account (unknown ids have none) *)
Definition txns_of (w : world) (i : nat) : dict R R :=
  match acct_of w i with Some a => a_txns (la_acct a) | None => [] end.

(** linked_limit.py:198-258 [_merge_transactions].  [order] is the iteration order of the set
    [link.group - {self}] (arbitrary in Python). *)
Definition merge_start (i : nat) (extra : option (dict R R)) (group : dict nat (dict R R)) : dict R R :=
  match extra with
  | Some d => d
  | None => match dget Nat.eqb group i with Some d => d | None => [] end
  end.
Definition merge_one (w : world) (group : dict nat (dict R R)) (d : dict R R) (j : nat) : dict R R :=
  let d := radd_transactions d (txns_of w j) in
  match dget Nat.eqb group j with Some e => radd_transactions d e | None => d end.
Definition others (w : world) (l : link) (i : nat) : list nat :=
  match rec_of w l with
  | Some r => filter (fun j => negb (Nat.eqb i j)) (l_group r)
  | None => []
  end.
Definition merge_transactions (w : world) (i : nat) (extra : option (dict R R))
    (group : dict nat (dict R R)) (order : list nat) : dict R R :=
  fold_left (merge_one w group) order (merge_start i extra group).

(** the limit the superclass method reads; a None limit raises TypeError in the subtraction
    (base.py:651, 707, 762, 816) *)
Definition read_limit (w : world) (a : lacct) (s : slot) : res er :=
  match get_limit w a s with Some e => Ok e | None => Err TypeError end.
(** iteration order of the group for slot [s]; no link means nothing to merge (line 245) *)
Definition group_order (w : world) (i : nat) (a : lacct) (s : slot) : list nat :=
  match la_link a s with Some l => others w l i | None => [] end.

(** linked_limit.py:260-382 the four flow methods: merge, then the superclass method *)
Definition linked_flows (w : world) (i : nat) (a : lacct) (s : slot) (order : list nat)
    (timing : option (dict R R)) (tl bl : option er)
    (extra : option (dict R R)) (group : dict nat (dict R R)) : res (list (R * er)) :=
  let merged := Some (merge_transactions w i extra group order) in
  let* limit := read_limit w a s in
  match s with
  | MaxIn | MinIn => inflows_upto (la_acct a) limit timing tl bl merged
  | MaxOut | MinOut => outflows_upto (la_acct a) limit timing tl bl merged
  end.

(** recording flows against an account of the group *)
Definition record_flows (w : world) (i : nat) (flows : list (R * R)) : res world :=
  match acct_of w i with
  | None => Err KeyError
  | Some a => let* a' := add_all (la_acct a) flows in
              Ok (set_acct w i {| la_acct := a'; la_link := la_link a |})
  end.

(** ** Histories of operations on links and accounts (for C26); an operation that raises
    leaves the state as it was *)
Inductive lop : Type :=
| ONew (i : nat) (a : account) (links : slot -> option link) (limits : slot -> option er)
| OSet (i : nat) (s : slot) (v : er)
| ORegister (l : link)
| OUnregister (l : link)
| OLink (l : link) (i : nat)
| OUnlink (l : link) (i : nat)
| OData (l : link) (v : option er)
| ORecord (i : nat) (flows : list (R * R)).
Definition lstep (w : world) (o : lop) : world :=
  let keep (r : res world) := match r with Ok w' => w' | Err _ => w end in
  match o with
  | ONew i a links limits => keep (new_account w i a links limits)
  | OSet i s v => match acct_of w i with Some a => keep (set_limit w a s v) | None => w end
  | ORegister l => register w l None
  | OUnregister l => unregister w l
  | OLink l i => keep (link_account w l i)
  | OUnlink l i => keep (unlink_account w l i)
  | OData l v => keep (set_link_data w l v)
  | ORecord i flows => keep (record_flows w i flows)
  end.
Definition lrun (h : list lop) : world := fold_left lstep h {| w_data := []; w_accts := [] |}.
