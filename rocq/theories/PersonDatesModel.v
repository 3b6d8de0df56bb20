(** Model of the dates and raise rates of /repo/forecaster/person.py ([Person]), on top of PersonModel.v. *)
From Verif Require Import Base LedgerModel PersonModel.
Local Open Scope Z_scope.

(** ** dateutil.relativedelta, as far as person.py uses it *)
(** [d + relativedelta(months=m)] (and [years=n], which is 12n months): the day is clamped to the end of the
    month; datetime only has the years 1 to 9999 *)
Definition add_months (d : date) (m : Z) : res date :=
  let t := d_y d * 12 + (d_m d - 1) + m in
  let y := t / 12 in let mo := t mod 12 + 1 in
  if (1 <=? y) && (y <=? 9999) then Ok {| d_y := y; d_m := mo; d_d := Z.min (d_d d) (days_in_month y mo) |}
  else Err ValueError.
(** [relativedelta(d, b).years]: the number of months between the dates' months, taken back by one if that
    goes past [d] (a second step is never needed: a month further, [b] is in another month than [d]), and then
    cut to years towards zero *)
Definition rel_years (d b : date) : res Z :=
  let m := (d_y d - d_y b) * 12 + (d_m d - d_m b) in
  let* t := add_months b m in
  let m' := if date_lt d b then (if date_lt t d then m + 1 else m) else (if date_lt d t then m - 1 else m) in
  Ok (Z.quot m' 12).

(** ** Dates of a person *)
(** person.py:133-134: the two hidden attributes *)
Record pdates : Type := { pd_birth : date; pd_retire : option date }.
Inductive dop : Type :=
| SetBirth (d : date)                 (* person.birth_date = d *)
| SetRetire (d : option date)         (* person.retirement_date = d *)
| SetAge (n : option Z).              (* person.retirement_age = n *)
(** person.py:191-222 the [retirement_date] setter: what is stored, and what is raised *)
Definition set_retire (s : pdates) (v : option date) : pdates * option err :=
  match v with
  | None => ({| pd_birth := pd_birth s; pd_retire := None |}, Some NotImplementedError)
  | Some d => match check_retirement (pd_birth s) (Some d) with
              | Ok d => ({| pd_birth := pd_birth s; pd_retire := Some d |}, None)
              | Err e => (s, Some e)
              end
  end.
(** person.py:164-184 the [birth_date] setter; 229-239 the [retirement_age] setter.  Arguments are datetimes and
    ints (see PersonModel.v on parsing). *)
Definition dstep (s : pdates) (o : dop) : pdates * option err :=
  match o with
  | SetBirth d => ({| pd_birth := d; pd_retire := pd_retire s |}, None)
  | SetRetire v => set_retire s v
  | SetAge None => set_retire s None
  | SetAge (Some n) => match add_months (pd_birth s) (12 * n) with
                       | Ok d => set_retire s (Some d)
                       | Err e => (s, Some e)
                       end
  end.
(** person.py:224-227: with no retirement date, [relativedelta(None, birth_date)] is an empty difference *)
Definition retirement_age (s : pdates) : res Z :=
  match pd_retire s with None => Ok 0 | Some d => rel_years d (pd_birth s) end.
(** person.py:140-142: construction assigns both dates in turn; an error is raised out of the constructor *)
Definition new_person (birth : date) (retire : option date) : res pdates :=
  match set_retire {| pd_birth := birth; pd_retire := None |} retire with (s, None) => Ok s | (_, Some e) => Err e end.

(** ** Raise rates *)
Inductive rarg : Type := RNone | RDict (d : dict Z Q) | RScalar (q : Q) | RFun (f : Z -> res Q).
(** what a raise-rate function returns: a number, or None *)
Inductive rval : Type := VNum (q : Q) | VNoneRate.
(** person.py:252-279 the [raise_rate_callable] setter, without high precision.  For None, the recursive
    assignment of 0 is followed by the rest of the method, which wraps None itself. *)
Definition set_raise (v : rarg) : Z -> res rval :=
  match v with
  | RNone => fun _ => Ok VNoneRate
  | RDict d => fun y => match dget Z.eqb d y with Some q => Ok (VNum q) | None => Err KeyError end
  | RScalar q => fun _ => Ok (VNum q)
  | RFun f => fun y => let* q := f y in Ok (VNum q)
  end.
(** person.py:119-120: the constructor replaces None by 0 *)
Definition init_raise (v : rarg) : Z -> res rval := set_raise (match v with RNone => RScalar 0 | _ => v end).
(** person.py:325-343: this year's gross income, from last year's *)
Definition next_gross (raise : Z -> res rval) (retire : option date) (last : Q) (year : Z) : res Q :=
  if match retire with Some d => d_y d <? year | None => false end then Ok 0%Q
  else let* r := raise year in match r with VNum q => Ok (last * (1 + q))%Q | VNoneRate => Err TypeError end.
