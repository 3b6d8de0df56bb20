(** Specification vocabulary for inflation and scenarios. *)
From Verif Require Import Base InflationModel ScenarioModel.

(** every number in a table entry multiplied by [f] *)
Definition scaled (v w : ival) (f : Q) : Prop :=
  match v, w with
  | VScalar a, VScalar b => b == a * f
  | VList l, VList m => Forall2 (fun a b => b == a * f) l m
  | VDict d, VDict e => Forall2 (fun a b => fst b = fst a /\ snd b == snd a * f) d e
  | _, _ => False
  end.

(** inflation known (and not -100%) in all years of [lo, hi) *)
Definition infl_ok (s : scenario) (rate : Z -> Q) (lo hi : Z) : Prop :=
  forall y, (lo <= y < hi)%Z -> series_get (inflation s) y = Ok (rate y) /\ ~ 1 + rate y == 0.


(** [b] is the year a table is extended from to reach [y]: the latest listed year before [y] or,
    if there is none, the earliest listed year *)
Definition base_for {V} (vals : dict Z V) (y b : Z) : Prop :=
  In b (dkeys vals) /\
  ((b < y /\ forall x, In x (dkeys vals) -> x < y -> x <= b) \/
   ((forall x, In x (dkeys vals) -> y < x) /\ forall x, In x (dkeys vals) -> b <= x))%Z.

(** what a series argument of a scenario starting in [init] says about each year *)
Definition says (a : series_arg) (init : Z) (value : Z -> res Q) : Prop :=
  match a with
  | SANone => False
  | SAScalar q => forall y, value y = Ok q
  | SADict d => forall y, value y = match dget Z.eqb d y with Some v => Ok v | None => Err KeyError end
  | SAList l => forall y, value y = if (init <=? y)%Z then match nth_error l (Z.to_nat (y - init)) with Some v => Ok v | None => Err KeyError end
                                    else Err KeyError
  end.
