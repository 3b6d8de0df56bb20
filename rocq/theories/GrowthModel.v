(** Model of /repo/forecaster/accounts/util.py over the reals. *)
From Verif Require Import Base RBase.
Open Scope R_scope.

(** util.py:19-73 [accumulation_function].  [nper = None] is continuous compounding.
    [Rpower b x] is Python's [b ** x] for b > 0; other bases are outside the model
    ([rate_ok]). *)
Definition accumulation_function (t rate : R) (nper : option positive) : R :=
  match nper with
  | None => exp (rate * t)
  | Some n => Rpower (1 + rate / IZR (Zpos n)) (IZR (Zpos n) * t)
  end.

(** the base of the discrete formula is positive: the rate does not wipe out the account *)
Definition rate_ok (rate : R) (nper : option positive) : Prop :=
  match nper with None => True | Some n => 0 < 1 + rate / IZR (Zpos n) end.

(** util.py:75-125 [accumulation_function_inverse]; math.log(0) is a ValueError. *)
Definition accumulation_function_inverse (accum rate : R) (nper : option positive) : res er :=
  if Rltb accum 0 then Err ValueError
  else if Reqb rate 0 then
    (if Reqb accum 1 then Ok (Fin 0) else if Rltb accum 1 then Ok MInf else Ok PInf)
  else if Reqb accum 0 then Err ValueError
  else match nper with
       | None => Ok (Fin (ln accum / rate))
       | Some n => Ok (Fin (ln accum / ln (1 + rate / IZR (Zpos n)) / IZR (Zpos n)))
       end.

(** util.py:127-150 [value_at_time], after the [when_conv]s *)
Definition value_at_time (value rate now time : R) (nper : option positive) : R :=
  value * accumulation_function (time - now) rate nper.

(** util.py:153-168 [time_to_value] *)
Definition time_to_value (rate value_now value_then : R) (nper : option positive) : res er :=
  if Reqb value_now 0 then Err ZeroDivisionError
  else accumulation_function_inverse (value_then / value_now) rate nper.
