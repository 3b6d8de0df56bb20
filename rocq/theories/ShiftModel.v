(** Model of the part of /repo/forecaster/forecast/subforecast.py that takes money out of an actual [Account]
    (accounts/base.py, modelled in AccountModel.v over the reals).  SubModel.v models the same methods with the
    account's answers as given functions. *)
From Verif Require Import Base RBase GrowthModel AccountModel.
Open Scope R_scope.

(** subforecast.py:432: [-account.max_outflow(t)]; for a plain Account the amount is always finite *)
Definition negr (e : er) : R := match e with Fin x => - x | _ => 0 end.
Definition at_hand (a : account) (t : R) : R := negr (max_outflow account_limits a t).
(** subforecast.py:428: [account.keys() | {when}] *)
Definition keys_with (d : dict R R) (w : R) : list R := if dmem Reqb d w then dkeys d else dkeys d ++ [w].
(** Python's [sorted] (line 441) *)
Fixpoint rinsert (x : R) (l : list R) : list R :=
  match l with [] => [x] | y :: r => if Rleb x y then x :: l else y :: rinsert x r end.
Definition rsort (l : list R) : list R := fold_right rinsert [] l.
(** subforecast.py:445-473: one pair of successive times.  Interpolated times lie strictly between known times, so
    [accum[later]] and [accum[earlier]] are those of the initial dict [known].  A time of minus or plus infinity
    fails the comparison on line 472. *)
Definition interpolate_one (a : account) (target : R) (known accum : dict R R) (earlier later : R) : res (dict R R) :=
  let l := rval known later in let e := rval known earlier in
  if (Rltb target l && Rltb e target) || (Rltb l target && Rltb target e) then
    let* t := time_to_balance_top a target (RNum earlier) in
    match t with
    | Fin t => if Rltb earlier t && Rltb t later then
                 let* flows := max_outflows account_limits a (Some [(t, 1)]) None None None in
                 Ok (dset Reqb accum t (negr (esum (map snd flows))))
               else Ok accum
    | _ => Ok accum
    end
  else Ok accum.
(** subforecast.py:442-444: the loop *)
Fixpoint interpolate (a : account) (target : R) (known : dict R R) (times : list R) (accum : dict R R) : res (dict R R) :=
  match times with
  | earlier :: ((later :: _) as r) => let* accum := interpolate_one a target known accum earlier later in interpolate a target known r accum
  | _ => Ok accum
  end.
(** subforecast.py:407-474 _accum_account *)
Definition accum_account (a : account) (w target : R) : res (dict R R) :=
  let known := map (fun t => (t, at_hand a t)) (filter (fun t => Rleb w t) (keys_with (a_txns a) w)) in
  interpolate a target known (rsort (dkeys known)) known.
(** subforecast.py:398-405 *)
Definition eligible (accum : dict R R) (value t : R) : bool :=
  forallb (fun rx => negb (Rleb t (fst rx)) || Rleb value (snd rx)) accum.
Definition earliest (accum : dict R R) (value w : R) : R :=
  match filter (eligible accum value) (dkeys accum) with [] => w | t :: r => fold_left Rmin r t end.
(** subforecast.py:372-405 _shift_when, for an Account; [max_outflow(when)] rejects times outside the year *)
Definition shift_when (a : account) (value w : R) : res R :=
  let* w := rwhen_conv (RNum w) in
  let* accum := accum_account a w value in
  Ok (earliest accum value w).
(** subforecast.py:350-353, 366-369: [if when in acct: acct[when] += v else: acct[when] = v], and line 209,
    [acct[when] -= v] for a time at which there is a transaction *)
Definition post (a : account) (t v : R) : res account :=
  let* t := rwhen_conv (RNum t) in
  if dmem Reqb (a_txns a) t then setitem a (RNum t) (fst (getitem a t) + v) else setitem a (RNum t) v.
(** subforecast.py:249-324, 326-370: [add_transaction(value, timing=w, from_account=a)], w a number: the account
    and the record of transactions afterwards.  A negative value is a deposit, which is not shifted. *)
Definition take (ax : account * dict R R) (value w : R) (strict : bool) : res (account * dict R R) :=
  let (a, x) := ax in
  let* t := if Rltb value 0 then Ok w else if strict then Ok w else shift_when a value w in
  let* a' := post a t (- value) in
  Ok (a', rincr x t (- value)).
(** several transactions one after the other: value, time, strict timing *)
Fixpoint take_all (ax : account * dict R R) (l : list (R * R * bool)) : res (account * dict R R) :=
  match l with [] => Ok ax | (v, w, s) :: r => let* ax := take ax v w s in take_all ax r end.
(** subforecast.py:203-216 undo_transactions, for this account; the record is kept *)
Fixpoint undo (a : account) (x : dict R R) : res account :=
  match x with [] => Ok a | (t, v) :: r => let* a := post a t (- v) in undo a r end.
(** subforecast.py:176-183: a repeated call in the same year *)
Definition call_again (ax : account * dict R R) (l : list (R * R * bool)) : res (account * dict R R) :=
  let* a := undo (fst ax) (snd ax) in take_all (a, snd ax) l.
