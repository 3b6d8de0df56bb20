(** Model of /repo/forecaster/strategy/debt_payment/util.py and of the tree-building part of
    /repo/forecaster/strategy/transaction/strategy.py. *)
From Verif Require Import Base.
From Coq Require Export String.

(** Python's [sorted(l, key=key)] and [sorted(l, key=key, reverse=True)]: stable in both directions *)
Section Sort.
  Context {A : Type} (leb : A -> A -> bool).
  Fixpoint insert_by (x : A) (l : list A) : list A :=
    match l with
    | [] => [x]
    | y :: r => if leb x y then x :: y :: r else y :: insert_by x r
    end.
  Definition sort_by (l : list A) : list A := fold_right insert_by [] l.
End Sort.
Definition sorted_by {A} (key : A -> Q) : list A -> list A := sort_by (fun x y => Qle_bool (key x) (key y)).
Definition sorted_by_desc {A} (key : A -> Q) : list A -> list A := sort_by (fun x y => Qle_bool (key y) (key x)).

(** accounts are identities; what the strategy reads of each: the names of its classes in
    method-resolution order, whether it is a Debt, its balance and its rate *)
Record aview : Type := { v_mro : nat -> list string; v_debt : nat -> bool; v_balance : nat -> Q; v_rate : nat -> Q }.
(** debt_payment/util.py:11-24 *)
Definition avalanche (w : aview) (debts : list nat) : list nat := sorted_by_desc (v_rate w) debts.
(** debt_payment/util.py:26-39 *)
Definition snowball (w : aview) (debts : list nat) : list nat := sorted_by (fun a => qabs (v_balance w a)) debts.
(** debt_payment/util.py:44-49 PRIORITY_METHODS *)
Definition priority_method (key : string) : res (aview -> list nat -> list nat) :=
  if String.eqb key "Avalanche" then Ok avalanche
  else if String.eqb key "Snowball" then Ok snowball
  else Err KeyError.

(** priority trees (leaf, list, dict with weights); a TransactionNode wrapper is transparent *)
Inductive ptree : Type := PLeaf (a : nat) | POrd (l : list ptree) | PWt (l : list (ptree * Q)).
(** strategy.py:70-84 the attributes; [ts_ordered]: strategy key 'Ordered' (else 'Weighted');
    [ts_hash l]: the order in which Python iterates over a set with members l *)
Record tstrat : Type := {
  ts_ordered : bool; ts_weights : dict string Q; ts_debt : string; ts_threshold : option Q;
  ts_hash : list nat -> list nat }.
(** a Python set or frozenset built from an iterable *)
Definition mkset (s : tstrat) (l : list nat) : list nat := ts_hash s (nodup Nat.eq_dec l).
Definition mem (a : nat) (l : list nat) : bool := existsb (Nat.eqb a) l.
Definition seteq (l m : list nat) : bool := forallb (fun a => mem a m) l && forallb (fun a => mem a l) m.
(** strategy.py:247-275: (low, high) *)
Definition divide_debts (s : tstrat) (w : aview) (accounts : list nat) : list nat * list nat :=
  let debts := mkset s (filter (fun a => v_debt w a && Qlt_bool (v_balance w a) 0) accounts) in
  match ts_threshold s with
  | Some t =>
      let low := mkset s (filter (fun a => Qlt_bool (v_rate w a) t) debts) in
      (low, mkset s (filter (fun a => negb (mem a low)) debts))
  | None => (debts, [])
  end.
(** strategy.py:277-303 *)
Definition debt_priority (s : tstrat) (w : aview) (debts : list nat) : res (option (list nat)) :=
  match debts with
  | [] => Ok None
  | _ => let* m := priority_method (ts_debt s) in Ok (Some (m w debts))
  end.
(** strategy.py:233-245: type(account).__name__ is the first name of the MRO *)
Definition weight_key (s : tstrat) (w : aview) (a : nat) : option string :=
  find (fun k => dmem String.eqb (ts_weights s) k) (v_mro w a).
(** strategy.py:217-225: [account_keys[key].add(account)] in a defaultdict(set) *)
Fixpoint add_group (k : string) (a : nat) (d : list (string * list nat)) : list (string * list nat) :=
  match d with
  | [] => [(k, [a])]
  | (k', l) :: r => if String.eqb k k' then (k', l ++ [a]) :: r else (k', l) :: add_group k a r
  end.
(** strategy.py:202-231: distinct keys have disjoint, non-empty groups, so the dict comprehension
    never merges two of them.  [groups]: (members, weight) *)
Definition account_groups (s : tstrat) (w : aview) (accounts : list nat) : list (string * list nat) :=
  fold_left (fun d a => match weight_key s w a with Some k => add_group k a d | None => d end) accounts [].
Definition weight_groups (s : tstrat) (w : aview) (accounts : list nat) : list (list nat * Q) :=
  map (fun kv => (snd kv, match dget String.eqb (ts_weights s) (fst kv) with Some q => q | None => 0 end))
      (account_groups s w accounts).
(** strategy.py:188-200 *)
Definition get_subtree (s : tstrat) (low : list nat) (low_priority : option (list nat)) (group : list nat) : ptree :=
  match low_priority with
  | Some p => if seteq group low then POrd (map PLeaf p)
              else match group with [a] => PLeaf a | _ => PWt (map (fun a => (PLeaf a, 1)) (ts_hash s group)) end
  | None => match group with [a] => PLeaf a | _ => PWt (map (fun a => (PLeaf a, 1)) (ts_hash s group)) end
  end.
(** strategy.py:86-138 and 140-186 *)
Definition strategy_tree (s : tstrat) (low : list nat) (lp : option (list nat)) (groups : list (list nat * Q)) : ptree :=
  if ts_ordered s then POrd (map (fun g => get_subtree s low lp (fst g)) (sorted_by snd groups))
  else PWt (map (fun g => (get_subtree s low lp (fst g), snd g)) groups).
(** strategy.py:305-333: the priority tree handed to TransactionTraversal *)
Definition priority_tree (s : tstrat) (w : aview) (accounts : list nat) : res ptree :=
  let (low, high) := divide_debts s w accounts in
  let* lp := debt_priority s w low in
  let* hp := debt_priority s w high in
  let rest := mkset s (filter (fun a => negb (mem a high)) accounts) in
  let t := strategy_tree s low lp (weight_groups s w rest) in
  match hp with
  | Some h => Ok (POrd [POrd (map PLeaf h); t])
  | None => Ok t
  end.
