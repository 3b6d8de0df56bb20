(** Specification vocabulary for cash flows and timings, independent of the
    functions in TimingModel.v. *)
From Verif Require Import Base.

(** total of a cash flow *)
Definition total (d : dict Q Q) : Q := Qsum (dvals d).

(** cumulative cash position at time [t]: everything that happened at or before [t] *)
Definition cum (d : dict Q Q) (t : Q) : Q :=
  Qsum (map snd (filter (fun kv => Qle_bool (fst kv) t) d)).

(** [t] is one of the times of [d] *)
Definition has_time (d : dict Q Q) (t : Q) : Prop := exists k v, In (k, v) d /\ k == t.

(** [m] is the smallest cumulative position of [d] at any of its times from [t] on *)
Definition is_min_future (d : dict Q Q) (t m : Q) : Prop :=
  (exists u, has_time d u /\ t <= u /\ cum d u == m) /\
  (forall u, has_time d u -> t <= u -> m <= cum d u).

(** [m] is the lowest cumulative position of [d] at any of its times up to [t] *)
Definition is_min_past (d : dict Q Q) (t m : Q) : Prop :=
  (exists u, has_time d u /\ u <= t /\ cum d u == m) /\
  (forall u, has_time d u -> u <= t -> m <= cum d u).

(** a Python dict: no key twice *)
Definition wf (d : dict Q Q) : Prop := dwf Qeq_bool d.

(** a cash flow with money going both ways *)
Definition mixed (d : dict Q Q) : Prop :=
  (exists k v, In (k, v) d /\ 0 < v) /\ (exists k v, In (k, v) d /\ v < 0).

(** pairwise different numbers *)
Fixpoint distinctQ (l : list Q) : Prop :=
  match l with [] => True | x :: r => (forall y, In y r -> ~ x == y) /\ distinctQ r end.

(** the full description of an even schedule *)
Definition even_schedule (w : Q) (n : Z) (d : dict Q Q) : Prop :=
  List.length d = Z.to_nat n /\ wf d /\
  (forall k, (0 <= k < n)%Z ->
     exists v, qget d ((inject_Z k + w) / inject_Z n) = Some v /\ v == 1 / inject_Z n) /\
  (forall t v, In (t, v) d -> 0 <= t <= 1 /\ v == 1 / inject_Z n /\
     exists k, (0 <= k < n)%Z /\ t == (inject_Z k + w) / inject_Z n) /\
  total d == 1.

