(** Model of the construction of registered accounts: canada/accounts/registered_account.py [__init__],
    [_process_alias_args] and the [contributor] property, on top of accounts/linked_limit.py, accounts/link.py and
    accounts/base.py, followed by the part of rrsp.py and tfsa.py that runs after it.

    Objects are numbers.  [AccountLink] objects are on a heap, because two accounts can hold the same one and
    because the contributor setter changes one in place.  Not modelled: balance, rate, timing and inputs (they touch no
    other object); the other three links, which are taken not to be given. *)
From Verif Require Import Base.

(** link.py:7 [LinkTuple]; link.py:9-15 [LinkRecord] with a limit (or None) as data *)
Definition lkey : Type := (nat * string)%type.
Definition lkeyb (a b : lkey) : bool := Nat.eqb (fst a) (fst b) && String.eqb (snd a) (snd b).
Record lrecord : Type := { g_members : list nat; g_limit : option Q }.
(** an account object, as far as it has been initialised: its owner (base.py:159, 197), its max_inflow_link
    (linked_limit.py:74; None: the attribute does not exist yet) and its transactions of the year *)
Record aobj : Type := { o_owner : option nat; o_link : option nat; o_txns : list Q }.
(** people's [accounts] sets (person.py) and [data] dicts; AccountLink objects; account objects *)
Record hw : Type := { h_accounts : nat -> list nat; h_data : dict lkey lrecord; h_links : list lkey; h_objs : list aobj }.
Definition empty_hw : hw := {| h_accounts := fun _ => []; h_data := []; h_links := []; h_objs := [] |}.

(** a Python argument that should be a Person *)
Inductive parg : Type := PNone | PPerson (p : nat) | POther.
(** the max_inflow_link keyword: None, a tuple, an AccountLink object, or something else *)
Inductive larg : Type := LNone | LPair (p : parg) (t : string) | LObj (r : nat) | LBad.
(** the class that is constructed: only its own rules after RegisteredAccount.__init__ and its name matter *)
Inductive akind : Type := KRRSP (conversion_year : option Z) | KTFSA | KOther.
Record ctor_args : Type := {
  c_kind : akind; c_class : string; c_owner : parg; c_year : bool;       (* initial_year given *)
  c_nper_ok : bool;                                                        (* frequency_conv accepts nper *)
  c_room : option Q; c_contributor : option parg; c_token : option string;
  c_kw_limit : option (option Q);                                          (* 'max_inflow_limit' in kwargs *)
  c_kw_link : option larg }.                                               (* 'max_inflow_link' in kwargs *)

Definition upd_nat {A} (f : nat -> A) (i : nat) (v : A) (j : nat) : A := if Nat.eqb j i then v else f j.
Fixpoint upd_nth {A} (l : list A) (i : nat) (f : A -> A) : list A :=
  match l, i with [], _ => [] | x :: r, O => f x :: r | x :: r, S j => x :: upd_nth r j f end.
Definition set_accounts (w : hw) (f : nat -> list nat) : hw := {| h_accounts := f; h_data := h_data w; h_links := h_links w; h_objs := h_objs w |}.
Definition set_data (w : hw) (d : dict lkey lrecord) : hw := {| h_accounts := h_accounts w; h_data := d; h_links := h_links w; h_objs := h_objs w |}.
Definition set_links (w : hw) (l : list lkey) : hw := {| h_accounts := h_accounts w; h_data := h_data w; h_links := l; h_objs := h_objs w |}.
Definition set_objs (w : hw) (l : list aobj) : hw := {| h_accounts := h_accounts w; h_data := h_data w; h_links := h_links w; h_objs := l |}.
(** Python's [set.add] *)
Definition sadd (x : nat) (l : list nat) : list nat := if existsb (Nat.eqb x) l then l else l ++ [x].

(** registered_account.py:182-254: the link argument and the limit handed to the superclass.  [contributor] and
    [max_inflow_token] may be given as None, which counts as not given. *)
Definition process_alias_args (a : ctor_args) : res (larg * option Q) :=
  let* limit := match c_room a, c_kw_limit a with
                | Some _, Some _ => Err ValueError
                | _, Some v => Ok v
                | r, None => Ok r
                end in
  let* link := match c_kw_link a with
               | Some l => match c_contributor a, c_token a with
                           | None, None => Ok l
                           | _, _ => Err ValueError
                           end
               | None => Ok (LPair (match c_contributor a with Some p => p | None => c_owner a end)
                                   (match c_token a with Some t => t | None => (c_class a ++ ".max_inflow")%string end))
               end in
  Ok (link, limit).

(** results of Python code that changes the world and may raise: the world is kept in both cases *)
Definition outcome (A : Type) : Type := (res A * hw)%type.

(** base.py:100-175 Account.__init__ for a new object, which gets the next number.  Raising before line 167 leaves
    no trace; nper is converted (line 170) after the account was added to its owner's accounts (line 195). *)
Definition account_init (w : hw) (a : ctor_args) : outcome nat :=
  let i := Datatypes.length (h_objs w) in
  let fresh o := {| o_owner := o; o_link := None; o_txns := [] |} in
  match c_owner a with
  | POther => (Err TypeError, w)
  | PNone => if c_year a
             then let w1 := set_objs w (h_objs w ++ [fresh None]) in ((if c_nper_ok a then Ok i else Err ValueError), w1)
             else (Err TypeError, w)
  | PPerson p =>
      let w1 := set_objs (set_accounts w (upd_nat (h_accounts w) p (sadd i (h_accounts w p)))) (h_objs w ++ [fresh (Some p)]) in
      ((if c_nper_ok a then Ok i else Err ValueError), w1)
  end.

(** link.py:90-104, 114-132: the record of an AccountLink *)
Definition rec_at (w : hw) (k : lkey) : option lrecord := dget lkeyb (h_data w) k.
Definition put_rec (w : hw) (k : lkey) (r : lrecord) : hw := set_data w (dset lkeyb (h_data w) k r).
(** link.py:66-88 AccountLink(link, default_factory=lambda: None): the new object's number.  [owner.data] fails for
    anything that is not a Person. *)
Definition new_link (w : hw) (p : parg) (t : string) : outcome nat :=
  match p with
  | PPerson p =>
      let k := (p, t) in
      let w1 := set_links w (h_links w ++ [k]) in
      (Ok (Datatypes.length (h_links w)),
       match rec_at w k with Some _ => w1 | None => put_rec w1 k {| g_members := []; g_limit := None |} end)
  | _ => (Err AttributeError, w)
  end.
(** linked_limit.py:191-196 with link.py:166-173: adding account [i] to the group of link object [r] *)
Definition join (w : hw) (i r : nat) (limit : option Q) : outcome unit :=
  match nth_error (h_links w) r with
  | None => (Err AttributeError, w)
  | Some k =>
      match rec_at w k with
      | None => (Err KeyError, w)
      | Some g => (Ok tt, put_rec w k {| g_members := sadd i (g_members g);
                                         g_limit := match limit with Some _ => limit | None => g_limit g end |})
      end
  end.
(** linked_limit.py:74-75, 162-196: [self.max_inflow_link = self._process_link(...)] *)
Definition set_link_attr (w : hw) (i : nat) (r : option nat) : hw :=
  set_objs w (upd_nth (h_objs w) i (fun o => {| o_owner := o_owner o; o_link := r; o_txns := o_txns o |})).
Definition process_max_inflow_link (w : hw) (i : nat) (l : larg) (limit : option Q) : outcome unit :=
  match l with
  | LNone => (Ok tt, w)
  | LBad => (Err TypeError, w)
  | LObj r => match join w i r limit with (Ok _, w) => (Ok tt, set_link_attr w i (Some r)) | e => e end
  | LPair p t =>
      match new_link w p t with
      | (Err e, w) => (Err e, w)
      | (Ok r, w) => match join w i r limit with (Ok _, w) => (Ok tt, set_link_attr w i (Some r)) | e => e end
      end
  end.

(** the owner and the data of account [i]'s link: registered_account.py:96-99 and 106-110 with linked_limit.py:127-142
    (an account without link: Account's limit, which is infinite - not needed here: None) *)
Definition link_key (w : hw) (i : nat) : option lkey :=
  match nth_error (h_objs w) i with
  | Some o => match o_link o with Some r => nth_error (h_links w) r | None => None end
  | None => None
  end.
Definition contributor (w : hw) (i : nat) : res nat := match link_key w i with Some k => Ok (fst k) | None => Err AttributeError end.
Definition room (w : hw) (i : nat) : option Q :=
  match link_key w i with Some k => match rec_at w k with Some g => g_limit g | None => None end | None => None end.
(** [contribution_room is None] (rrsp.py:61, tfsa.py:52): an account without link has Account's infinite limit *)
Definition room_unset (w : hw) (i : nat) : bool :=
  match link_key w i with Some _ => match room w i with None => true | Some _ => false end | None => false end.
(** linked_limit.py:144-160 *)
Definition set_room (w : hw) (i : nat) (v : Q) : outcome unit :=
  match link_key w i with
  | None => (Err AttributeError, w)
  | Some k => match rec_at w k with
              | Some g => (Ok tt, put_rec w k {| g_members := g_members g; g_limit := Some v |})
              | None => (Err AttributeError, w)
              end
  end.
(** registered_account.py:101-104: only the AccountLink object is changed *)
Definition set_contributor (w : hw) (i : nat) (p : nat) : outcome unit :=
  match nth_error (h_objs w) i with
  | Some {| o_link := Some r |} => (Ok tt, set_links w (upd_nth (h_links w) r (fun k => (p, snd k))))
  | _ => (Err AttributeError, w)
  end.

Section Ctor.
  (** the latest permitted RRIF conversion year of an owner's RRSP (rrsp.py:64-70) and the inferred
      contribution room of a TFSA (tfsa.py:57-) *)
  Context (max_conversion : option nat -> res Z) (inferred : hw -> nat -> res Q).
  Definition bind_out {A B} (m : outcome A) (k : A -> hw -> outcome B) : outcome B :=
    match m with (Ok x, w) => k x w | (Err e, w) => (Err e, w) end.
  (** rrsp.py:27-62 and tfsa.py:39-53: what the subclasses do after the superclass's __init__ *)
  Definition class_init (w : hw) (i : nat) (o : option nat) (k : akind) : outcome unit :=
    match k with
    | KRRSP y =>
        bind_out (match y with
                  | None => (Ok tt, w)
                  | Some y => match max_conversion o with
                              | Err e => (Err e, w)
                              | Ok m => ((if Z.ltb m y then Err ValueError else Ok tt), w)
                              end
                  end)
          (fun _ w => if room_unset w i then set_room w i 0 else (Ok tt, w))
    | KTFSA => if room_unset w i then match inferred w i with Err e => (Err e, w) | Ok q => set_room w i q end
               else (Ok tt, w)
    | KOther => (Ok tt, w)
    end.
  (** registered_account.py:15-94 and the subclasses' constructors: the new account's number *)
  Definition construct (w : hw) (a : ctor_args) : outcome nat :=
    match process_alias_args a with
    | Err e => (Err e, w)
    | Ok (link, limit) =>
        bind_out (account_init w a) (fun i w =>
        bind_out (process_max_inflow_link w i link limit) (fun _ w =>
        bind_out (class_init w i (match c_owner a with PPerson p => Some p | _ => None end) (c_kind a)) (fun _ w => (Ok i, w))))
    end.
  (** base.py:346-368; the times of transactions are left out (transactions at one time would be added up) *)
  Definition deposit (w : hw) (i : nat) (v : Q) : hw :=
    set_objs w (upd_nth (h_objs w) i (fun o => {| o_owner := o_owner o; o_link := o_link o; o_txns := o_txns o ++ [v] |})).
  (** base.py:370-377 and linked_limit.py:243-258: the inflows of the account and of the other members of its link's group *)
  Definition inflow_of (w : hw) (i : nat) : Q :=
    match nth_error (h_objs w) i with Some o => Qsum (map (fun v => qmax v 0) (o_txns o)) | None => 0 end.
  (** base.py:710-715, linked_limit.py:260-289: the most that may still be contributed this year
      (None: no limit is set, or there is no link) *)
  Definition room_left (w : hw) (i : nat) : option Q :=
    match link_key w i with
    | Some k => match rec_at w k with
                | Some g => match g_limit g with
                            | Some m => Some (qmax (m - (inflow_of w i + Qsum (map (inflow_of w) (filter (fun j => negb (Nat.eqb i j)) (g_members g))))) 0)
                            | None => None
                            end
                | None => None
                end
    | None => None
    end.
  (** what a user does to a household *)
  Inductive rop : Type := RConstruct (a : ctor_args) | RDeposit (i : nat) (v : Q) | RRoom (i : nat) (v : Q) | RContributor (i : nat) (p : nat).
  Definition rstep (w : hw) (o : rop) : hw :=
    match o with
    | RConstruct a => snd (construct w a)
    | RDeposit i v => deposit w i v
    | RRoom i v => snd (set_room w i v)
    | RContributor i p => snd (set_contributor w i p)
    end.
  Definition rrun (l : list rop) (w : hw) : hw := fold_left rstep l w.
End Ctor.
