(** Model of /repo/forecaster/ledger/recorded_property.py and ledger/base.py.

    A ledger class is described by a [lclass]: which properties are recorded, which of
    them are cached, the decorated getter/setter/deleter of each, and the user inputs.
    Getters are arbitrary programs that may read other recorded properties (through the
    wrapped getters, so nested caching is modelled), read histories, read and write the
    object's other attributes ([E]), and assign recorded properties.
    [None] results stand for a raised exception or unbounded recursion. *)
From Coq Require Import ZArith List Bool Lia.
Import ListNotations.

Section Ledger.
  Context {V E : Type}.           (* property values; other attributes of the object *)

  (** a Python getter body *)
  Inductive prog : Type :=
  | Ret (v : V)
  | Get (p : nat) (k : V -> prog)                   (* self.p *)
  | HistAt (p : nat) (y : Z) (k : option V -> prog) (* self.p_history.get(y) *)
  | EnvRd (k : E -> prog)                           (* other attributes *)
  | EnvWr (f : E -> E) (k : prog)
  | Year (k : Z -> prog)                            (* self.this_year *)
  | SetP (p : nat) (v : V) (k : prog)               (* self.p = v *)
  | PastAt (p : nat) (d : positive) (k : option V -> prog)  (* self._p_history.get(self.this_year - d) *)
  | Raise.                                          (* an exception *)

  Record lclass : Type := {
    props : list nat;                  (* cls._recorded_properties (some order of the set) *)
    cached : nat -> bool;              (* member of cls._recorded_properties_cached *)
    fget : nat -> prog;
    fset : nat -> option (V -> E -> E);
    fdel : nat -> option (E -> E);
    inputs : nat -> Z -> option V      (* self.inputs[p].get(year) *)
  }.

  (** object state: [this_year], the [_p_history] dicts, the other attributes *)
  Record lstate : Type := { year : Z; hist : nat -> Z -> option V; env : E }.

  Definition upd (h : nat -> Z -> option V) (p : nat) (y : Z) (v : option V) : nat -> Z -> option V :=
    fun p' y' => if (Nat.eqb p' p && Z.eqb y' y)%bool then v else h p' y'.
  Definition put (s : lstate) (p : nat) (y : Z) (v : option V) : lstate :=
    {| year := year s; hist := upd (hist s) p y v; env := env s |}.
  Definition with_env (s : lstate) (e : E) : lstate :=
    {| year := year s; hist := hist s; env := e |}.

  Context (C : lclass).

  (** is there a user input for this property this year? (recorded_property.py:70-72) *)
  Definition has_input (s : lstate) (p : nat) : bool :=
    match inputs C p (year s) with Some _ => true | None => false end.

  (** recorded_property.py:67-92 [setter] *)
  Definition setter (s : lstate) (p : nat) (v : V) : lstate :=
    if has_input s p then s else
    match fset C p with
    | None => put s p (year s) (Some v)
    | Some f => let s' := put s p (year s) None in with_env s' (f v (env s'))
    end.

  (** recorded_property.py:94-107 [deleter] *)
  Definition deleter (s : lstate) (p : nat) : lstate :=
    if has_input s p then s else
    let s' := put s p (year s) None in
    match fdel C p with None => s' | Some f => with_env s' (f (env s')) end.

  (** recorded_property.py:59-65 [getter], and 152-157 for cached properties, with [r]
      running the decorated getter. *)
  Definition get_with (r : lstate -> prog -> option (V * lstate)) (p : nat) (s : lstate)
    : option (V * lstate) :=
    match hist s p (year s) with
    | Some v => Some (v, s)
    | None =>
      match r s (fget C p) with
      | None => None
      | Some (v, s') => Some (v, if cached C p then put s' p (year s') (Some v) else s')
      end
    end.

  (** interpreter of getter bodies; [n] bounds the nesting of property reads *)
  Fixpoint run (n : nat) : lstate -> prog -> option (V * lstate) :=
    match n with
    | O => fun _ _ => None
    | S m =>
      fix go (s : lstate) (g : prog) {struct g} : option (V * lstate) :=
        match g with
        | Ret v => Some (v, s)
        | Get p k => match get_with (run m) p s with
                     | None => None | Some (v, s') => go s' (k v) end
        | HistAt p y k =>
          (* recorded_property.py:111-122 / 168-173: history includes this year *)
          match get_with (run m) p s with
          | None => None
          | Some (v, s') =>
            go s' (k (if Z.eqb y (year s) then Some v else hist s' p y))
          end
        | EnvRd k => go s (k (env s))
        | EnvWr f k => go (with_env s (f (env s))) k
        | Year k => go s (k (year s))
        | SetP p v k => go (setter s p v) k
        | PastAt p d k => go s (k (hist s p (year s - Zpos d)%Z))
        | Raise => None
        end
    end.

  (** reading [obj.p] *)
  Definition getp (n : nat) (s : lstate) (p : nat) : option (V * lstate) := get_with (run n) p s.

  (** base.py:60-92 [Ledger.__init__] *)
  Definition init (y0 : Z) (e : E) : lstate := {| year := y0; hist := inputs C; env := e |}.

  (** base.py:100-109: record each property that has no entry for this year *)
  Fixpoint record (n : nat) (ps : list nat) (s : lstate) : option lstate :=
    match ps with
    | [] => Some s
    | p :: r =>
      match hist s p (year s) with
      | Some _ => record n r s
      | None => match getp n s p with
                | None => None
                | Some (v, s') => record n r (put s' p (year s') (Some v))
                end
      end
    end.
  (** base.py:94-111 [next_year] *)
  Definition next_year (n : nat) (s : lstate) : option lstate :=
    match record n (props C) s with
    | None => None
    | Some s' => Some {| year := (year s' + 1)%Z; hist := hist s'; env := env s' |}
    end.

  (** base.py:113-118 [clear_cache] *)
  Definition clear_cache (s : lstate) : lstate :=
    fold_left deleter (filter (cached C) (props C)) s.

  (** public operations on a ledger object *)
  Inductive op : Type :=
  | OGet (p : nat) | OHist (p : nat) (y : Z) | OSet (p : nat) (v : V) | ODel (p : nat)
  | OClear | OEnv (f : E -> E) | ONext.

  Definition step (n : nat) (s : lstate) (o : op) : option lstate :=
    match o with
    | OGet p | OHist p _ => match getp n s p with None => None | Some (_, s') => Some s' end
    | OSet p v => Some (setter s p v)
    | ODel p => Some (deleter s p)
    | OClear => Some (clear_cache s)
    | OEnv f => Some (with_env s (f (env s)))
    | ONext => next_year n s
    end.
  Fixpoint steps (n : nat) (s : lstate) (os : list op) : option lstate :=
    match os with
    | [] => Some s
    | o :: r => match step n s o with None => None | Some s' => steps n s' r end
    end.

  (** [obj.p_history] as a lookup: past and input years from the dict, this year computed *)
  Definition history_at (n : nat) (s : lstate) (p : nat) (y : Z) : option (option V) :=
    match getp n s p with
    | None => None
    | Some (v, s') => Some (if Z.eqb y (year s) then Some v else hist s' p y)
    end.
End Ledger.
Arguments prog : clear implicits.
Arguments lclass : clear implicits.
Arguments lstate : clear implicits.
Arguments op : clear implicits.
