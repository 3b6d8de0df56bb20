(** Model of /repo/forecaster/scenario.py. *)
From Verif Require Import Base.

(** Inputs accepted by [Scenario._build_dict] (scenario.py:87-170), with [default=None]
    as in every call made by the code base. *)
Inductive series_arg : Type :=
| SANone | SADict (d : dict Z Q) | SAList (l : list Q) | SAScalar (q : Q).

(** The dicts it returns: a plain dict, or a defaultdict with a constant factory. *)
Inductive series : Type := SDict (d : dict Z Q) | SConst (q : Q).

(** [series[year]] *)
Definition series_get (s : series) (year : Z) : res Q :=
  match s with
  | SDict d => dget_r Z.eqb d year
  | SConst q => Ok q
  end.

(** the dict comprehension at scenario.py:162-165 *)
Fixpoint enum_from (y : Z) (l : list Q) : dict Z Q :=
  match l with [] => [] | x :: r => (y, x) :: enum_from (y + 1) r end.

(** scenario.py:88-170 [_build_dict] *)
Definition build_dict (a : series_arg) (initial_year : Z) : res series :=
  match a with
  | SANone => Err ValueError
  | SADict d => Ok (SDict d)
  | SAList l => Ok (SDict (enum_from initial_year l))
  | SAScalar q => Ok (SConst q)
  end.

Record scenario : Type := {
  initial_year : Z; num_years : Z;
  inflation : series; stock_return : series; bond_return : series;
  other_return : series; management_fees : series }.

(** scenario.py:38-85 [Scenario.__init__] (integer year arguments) *)
Definition Scenario (init num : Z) (infl stock bond other fees : series_arg) : res scenario :=
  if Z.ltb num 1 then Err ValueError else
  let* i := build_dict infl init in
  let* s := build_dict stock init in
  let* b := build_dict bond init in
  let* o := build_dict other init in
  let* f := build_dict fees init in
  Ok {| initial_year := init; num_years := num; inflation := i; stock_return := s;
        bond_return := b; other_return := o; management_fees := f |}.

(** Python [range(a, b)] *)
Definition zrange2 (a b : Z) : list Z := map (fun k => a + Z.of_nat k)%Z (seq 0 (Z.to_nat (b - a))).

(** scenario.py:172-177 [discount_rate] *)
Definition discount_rate (s : scenario) (year : Z) : res Q := series_get (inflation s) year.

(** the loops at scenario.py:187-188 and 191-192 *)
Fixpoint accum_loop (s : scenario) (acc : Q) (ys : list Z) : res Q :=
  match ys with
  | [] => Ok acc
  | y :: r => let* i := discount_rate s y in accum_loop s (acc * (1 + i)) r
  end.

(** scenario.py:179-193 [accumulation_function] *)
Definition accumulation_function (s : scenario) (year1 year2 : Z) : res Q :=
  if Z.leb year1 year2 then accum_loop s 1 (zrange2 year1 year2)
  else let* a := accum_loop s 1 (zrange2 year2 year1) in qdiv 1 a.

(** scenario.py:236-243 [__iter__] and 230-234 [__len__] *)
Definition scenario_iter (s : scenario) : list Z :=
  zrange2 (initial_year s) (initial_year s + num_years s).
Definition scenario_len (s : scenario) : Z := num_years s.

(** scenario.py:195-206 [inflation_adjustments] *)
Fixpoint inflation_adjustments_loop (s : scenario) (base : Z) (ys : list Z) : res (dict Z Q) :=
  match ys with
  | [] => Ok []
  | y :: r => let* a := accumulation_function s y base in
              let* d := inflation_adjustments_loop s base r in Ok ((y, a) :: d)
  end.
Definition inflation_adjustments (s : scenario) (base : Z) : res (dict Z Q) :=
  inflation_adjustments_loop s base (scenario_iter s).

(** scenario.py:263-288 [InflationAdjust.__call__] *)
Definition inflation_adjust (s : scenario) (target : Z) (base : option Z) : res Q :=
  let b := match base with Some b => b | None => initial_year s end in
  accumulation_function s b target.
