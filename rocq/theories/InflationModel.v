(** Model of /repo/forecaster/utility/inflation.py. *)
From Verif Require Import Base.

(** Python [max(iterable, default=None)] / [min(iterable, default=None)] on ints *)
Fixpoint zmaxl (l : list Z) : option Z :=
  match l with
  | [] => None
  | x :: r => match zmaxl r with None => Some x | Some m => Some (Z.max x m) end
  end.
Fixpoint zminl (l : list Z) : option Z :=
  match l with
  | [] => None
  | x :: r => match zminl r with None => Some x | Some m => Some (Z.min x m) end
  end.

(** inflation.py:9-43 [nearest_year] *)
Definition nearest_year {V} (vals : dict Z V) (year : Z) : option Z :=
  match vals with
  | [] => None
  | _ =>
    if dmem Z.eqb vals year then Some year
    else match zmaxl (filter (fun k => Z.ltb k year) (dkeys vals)) with
         | Some k => Some k
         | None => zminl (filter (fun k => Z.ltb year k) (dkeys vals))
         end
  end.

(** Values of the table passed to [extend_inflation_adjusted]: a scalar, a list or a
    dict of numbers (inflation.py:95-106).  Dict keys are numbers (tax brackets). *)
Inductive ival : Type := VScalar (q : Q) | VList (l : list Q) | VDict (d : dict Q Q).

(** sequencing over a comprehension *)
Fixpoint mapM {A B} (f : A -> res B) (l : list A) : res (list B) :=
  match l with
  | [] => Ok []
  | x :: r => let* y := f x in let* ys := mapM f r in Ok (y :: ys)
  end.

(** inflation.py:46-110 [extend_inflation_adjusted].  [inflation_adjust target base]
    is the callable argument (it may raise).  An empty table reaches [vals[None]]
    (line 95), a KeyError; line 109 is unreachable because an exact match returned. *)
Definition extend_inflation_adjusted (vals : dict Z ival)
    (inflation_adjust : Z -> option Z -> res Q) (target : Z) : res ival :=
  match dget Z.eqb vals target with
  | Some v => Ok v
  | None =>
    match nearest_year vals target with
    | None => Err KeyError
    | Some base =>
      if Z.eqb base target then Err ValueError else
      let* v := dget_r Z.eqb vals base in
      match v with
      | VDict d =>
        let* d' := mapM (fun kv => let* a := inflation_adjust target (Some base) in
                                   Ok (fst kv, snd kv * a)) d in Ok (VDict d')
      | VList l =>
        let* l' := mapM (fun x => let* a := inflation_adjust target (Some base) in Ok (x * a)) l in
        Ok (VList l')
      | VScalar q => let* a := inflation_adjust target (Some base) in Ok (VScalar (q * a))
      end
    end
  end.

(** Python argument of [build_inflation_adjust] (inflation.py:113): None, a dict, a
    callable or anything else. *)
Inductive infl_arg : Type :=
| INone | IDict (d : dict Z Q) | ICallable (f : Z -> option Z -> res Q) | IOther.

(** inflation.py:113-166 [build_inflation_adjust].  [min()] of an empty dict's keys
    (line 147) is a ValueError. *)
Definition build_inflation_adjust (a : infl_arg) : res (Z -> option Z -> res Q) :=
  match a with
  | INone => Ok (fun _ _ => Ok 1)
  | IDict d =>
    match zminl (dkeys d) with
    | None => Err ValueError
    | Some default_base =>
      Ok (fun target base =>
            let b := match base with Some b => b | None => default_base end in
            let* x := dget_r Z.eqb d target in
            let* y := dget_r Z.eqb d b in
            qdiv x y)
    end
  | IOther => Err TypeError
  | ICallable f => Ok f
  end.
