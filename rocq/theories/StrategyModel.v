(** Model of /repo/forecaster/strategy/base.py and /repo/forecaster/strategy/allocation.py. *)
From Verif Require Import Base InflationModel PersonModel ScenarioModel.
From Coq Require Export String.

(** ** base.py *)
(** base.py:53-63: [cls.strategies], built from the members of the class in the order
    [inspect.getmembers] yields them (sorted by name); a member is its name, the key its
    [@strategy_method] decoration gave it (None: undecorated) and its body.  As in a Python dict
    comprehension a later member replaces an earlier one with the same key. *)
Definition registry {M : Type} (members : list (string * option string * M)) : dict string M :=
  fold_left (fun d m => match snd (fst m) with Some k => dset String.eqb d k (snd m) | None => d end) members [].
(** what may be passed as [strategy]: a string, something with a [strategy_key] attribute, or
    something without *)
Inductive strategy_arg : Type := SStr (s : string) | SMethod (key : strategy_arg) | SOther.
(** base.py:84-102 Strategy.__init__: the key under which the object will look its method up *)
Definition strategy_init {M} (reg : dict string M) (a : strategy_arg) : res string :=
  let a' := match a with SMethod k => k | _ => a end in
  match a' with
  | SStr s => if dmem String.eqb reg s then Ok s else Err ValueError
  | _ => Err TypeError
  end.
(** base.py:104-109 Strategy.__call__ (the arguments are already applied to the method) *)
Definition strategy_call {M} (reg : dict string M) (key : string) : res M := dget_r String.eqb reg key.

(** ** allocation.py *)
(** allocation.py:8 the AssetAllocation namedtuple *)
Record alloc : Type := { stocks : Q; bonds : Q; other : Q }.
(** allocation.py:126-133: the attributes of a constructed strategy *)
Record aparams : Type := {
  a_target : Q; a_min : Q; a_max : Q; a_std_age : Z; a_period : Z; a_adjust : bool }.
(** allocation.py:121-139 (the strategy key is checked by [strategy_init]) *)
Definition AllocationParams (p : aparams) : res aparams :=
  if Qlt_bool (a_max p) (a_min p) then Err ValueError else Ok p.
(** allocation.py:141-163; base.py:112-119 [_param_check] *)
Definition n_minus_age (p : aparams) (age : Q) (retirement_age : option Q) : res alloc :=
  let* age' := if a_adjust p
               then match retirement_age with None => Err ValueError | Some r => Ok (age + (inject_Z (a_std_age p) - r)) end
               else Ok age in
  let target := (a_target p - age') / 100 in
  Ok {| stocks := target; bonds := 1 - target; other := 0 |}.
(** allocation.py:165-195 *)
Definition transition_to_const (p : aparams) (age : Q) (retirement_age : option Q) : res alloc :=
  let* r := if a_adjust p
            then match retirement_age with None => Err ValueError | Some r => Ok r end
            else Ok (inject_Z (a_std_age p)) in
  if Qle_bool age (r - inject_Z (a_period p)) then Ok {| stocks := a_max p; bonds := 1 - a_max p; other := 0 |}
  else if Qle_bool r age then
    let m := qmax (a_min p) (a_target p) in Ok {| stocks := m; bonds := 1 - m; other := 0 |}
  else
    let* x := qdiv ((a_max p - a_target p) * (r - age)) (inject_Z (a_period p)) in
    let target := a_target p + x in
    Ok {| stocks := target; bonds := 1 - target; other := 0 |}.
(** the two strategies shipped with AllocationStrategy, and any further one a subclass registers
    ([strategy_method] is the documented extension point) *)
Inductive akind : Type := NAge | Transition | Custom (f : Q -> option Q -> res alloc).
Definition raw_allocation (k : akind) (p : aparams) : Q -> option Q -> res alloc :=
  match k with NAge => n_minus_age p | Transition => transition_to_const p | Custom f => f end.
(** allocation.py:220-260 *)
Definition balance (p : aparams) (a : alloc) : res alloc :=
  if Qlt_bool (a_max p) (stocks a) then
    let* b := qdiv ((stocks a - a_max p) * bonds a) (bonds a + other a) in
    let* o := qdiv ((stocks a - a_max p) * other a) (bonds a + other a) in
    Ok {| stocks := a_max p; bonds := bonds a + b; other := other a + o |}
  else if Qlt_bool (stocks a) (a_min p) then
    let* b := qdiv ((a_min p - stocks a) * bonds a) (bonds a + other a) in
    let* o := qdiv ((a_max p - stocks a) * other a) (bonds a + other a) in
    Ok {| stocks := a_min p; bonds := bonds a - b; other := other a - o |}
  else Ok a.
(** allocation.py:262-273 AllocationStrategy.__call__ *)
Definition allocate (k : akind) (p : aparams) (age : Q) (retirement_age : option Q) : res alloc :=
  let* a := raw_allocation k p age retirement_age in balance p a.
(** allocation.py:25-48 RateFunction.__call__, given the person's age in the year, their
    retirement age and the scenario's returns for the year *)
Definition weighted_rate (a : alloc) (rs rb ro : Q) : res Q :=
  qdiv (stocks a * rs + bonds a * rb + other a * ro) (stocks a + bonds a + other a).
Definition rate_at (k : akind) (p : aparams) (age : Q) (retirement_age : option Q) (rs rb ro : Q) : res Q :=
  let* a := allocate k p age retirement_age in weighted_rate a rs rb ro.
(** the same for a person with a birth date and a scenario *)
Definition rate_function (k : akind) (p : aparams) (birth : date) (retirement_age : option Q) (s : scenario) (year : Z) : res Q :=
  let* age := age_in_year birth year in
  let* a := allocate k p (inject_Z age) retirement_age in
  let* rs := series_get (stock_return s) year in
  let* rb := series_get (bond_return s) year in
  let* ro := series_get (other_return s) year in
  weighted_rate a rs rb ro.
