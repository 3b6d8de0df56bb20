(** Model of /repo/forecaster/forecast/subforecast.py: SubForecast. *)
From Verif Require Import Base TimingModel.

(** ** Accounts *)
(** the account-like objects a SubForecast may be given, by identity; each is a mapping from times
    to amounts.  An object may be a plain dict or an [Account], which in addition answers
    [max_outflow(t)] and [time_to_balance(value, when)] from its present contents ([None]: infinity)
    and [sum(max_outflows(t).values())].  Errors raised by [time_to_balance] are not in this model: ShiftModel.v has the same
    methods for an actual Account, with them. *)
Definition heap : Type := dict nat (dict Q Q).
Record acct_view : Type := {
  av_out : dict Q Q -> Q -> Q;
  av_outs : dict Q Q -> Q -> Q;
  av_time : dict Q Q -> Q -> Q -> option Q }.
Definition kinds : Type := nat -> option acct_view.
Definition hget (h : heap) (a : nat) : dict Q Q := match dget Nat.eqb h a with Some d => d | None => [] end.
Definition hset (h : heap) (a : nat) (d : dict Q Q) : heap := dset Nat.eqb h a d.
(** subforecast.py:350-353, 366-369: [if when in d: d[when] += v else: d[when] = v]; also
    [defaultdict] lookups with [+=] (lines 354, 370) and [account[when] -= value] (line 209, for a
    recorded [when]) *)
Definition incr (d : dict Q Q) (t v : Q) : dict Q Q :=
  match dget Qeq_bool d t with Some y => dset Qeq_bool d t (y + v) | None => dset Qeq_bool d t v end.

(** ** Finding a time *)
(** subforecast.py:386: [account.keys() | {when}] *)
Definition keys_with (d : dict Q Q) (w : Q) : list Q := if dmem Qeq_bool d w then dkeys d else dkeys d ++ [w].
(** subforecast.py:386-393 *)
Definition upto (d : dict Q Q) (t : Q) : Q := Qsum (map snd (filter (fun kv => Qle_bool (fst kv) t) d)).
Definition accum_plain (d : dict Q Q) (w : Q) : dict Q Q :=
  map (fun t => (t, upto d t)) (filter (fun t => Qle_bool w t) (keys_with d w)).
(** subforecast.py:442-473: the loop over successive known times; [accum] is the dict that grows *)
Fixpoint interpolate (av : acct_view) (d : dict Q Q) (target : Q) (known : dict Q Q) (times : list Q) (accum : dict Q Q) : dict Q Q :=
  match times with
  | earlier :: ((later :: _) as r) =>
      let l := qval known later in let e := qval known earlier in
      let accum' :=
        if (Qlt_bool target l && Qlt_bool e target) || (Qlt_bool l target && Qlt_bool target e) then
          match av_time av d target earlier with
          | Some t => if Qlt_bool earlier t && Qlt_bool t later then dset Qeq_bool accum t (- av_outs av d t) else accum
          | None => accum
          end
        else accum in
      interpolate av d target known r accum'
  | _ => accum
  end.
(** subforecast.py:408-474 _accum_account; interpolated times lie strictly between known times, so
    the values read in the loop are those of the initial dict *)
Definition accum_account (av : acct_view) (d : dict Q Q) (w target : Q) : dict Q Q :=
  let known := map (fun t => (t, - av_out av d t)) (filter (fun t => Qle_bool w t) (keys_with d w)) in
  interpolate av d target known (qsort (dkeys known)) known.
(** subforecast.py:398-405 *)
Definition eligible (accum : dict Q Q) (value t : Q) : bool :=
  forallb (fun rx => negb (Qle_bool t (fst rx)) || Qle_bool value (snd rx)) accum.
Definition earliest (accum : dict Q Q) (value w : Q) : Q :=
  match qminl (filter (eligible accum value) (dkeys accum)) with Some t => t | None => w end.
(** subforecast.py:372-405 _shift_when *)
Definition shift_when (kd : kinds) (h : heap) (value w : Q) (a : nat) : Q :=
  let d := hget h a in
  earliest (match kd a with Some av => accum_account av d w value | None => accum_plain d w end) value w.

(** ** Transactions *)
Definition oeqb (a b : option nat) : bool :=
  match a, b with Some x, Some y => Nat.eqb x y | None, None => true | _, _ => false end.
(** the TransactionDict: keys are accounts (by identity) or None (subforecast.py:9-76, 148) *)
Definition txs : Type := dict (option nat) (dict Q Q).
Definition tget (x : txs) (a : option nat) : dict Q Q := match dget oeqb x a with Some d => d | None => [] end.
Definition book (x : txs) (a : option nat) (t v : Q) : txs := dset oeqb x a (incr (tget x a) t v).
Definition post (h : heap) (a : option nat) (t v : Q) : heap :=
  match a with Some i => hset h i (incr (hget h i) t v) | None => h end.
(** subforecast.py:326-370 _add_transaction *)
Definition add_one (kd : kinds) (hx : heap * txs) (value w : Q) (from to : option nat) (strict : bool) : heap * txs :=
  let (h, x) := hx in
  let w := match from with Some a => if strict then w else shift_when kd h value w a | None => w end in
  let h1 := post h from w (- value) in
  let x1 := book x from w (- value) in
  (post h1 to w value, book x1 to w value).
(** subforecast.py:249-324 add_transaction, for a Timing [timing] (the default timing, or what the
    argument was converted to: see [timing_arg]) *)
Definition add_timed (kd : kinds) (hx : heap * txs) (value : Q) (timing : dict Q Q) (from to : option nat) (strict : bool) : res (heap * txs) :=
  let swap := Qlt_bool value 0 in
  let (f, t) := if swap then (to, from) else (from, to) in
  let v := if swap then - value else value in
  let total := Qsum (dvals timing) in
  fold_left (fun r tw => let* hx := r in let* share := qdiv (snd tw) total in
                         Ok (add_one kd hx (v * share) (fst tw) f t strict)) timing (Ok hx).
Inductive timing_in : Type := TDefault | TObj (d : dict Q Q) | TArg (w : when_arg).
(** subforecast.py:298-306 *)
Definition timing_arg (default : dict Q Q) (t : timing_in) : res (dict Q Q) :=
  match t with TDefault => Ok default | TObj d => Ok d | TArg w => Timing w (FNum 1) end.
Definition add_transaction (kd : kinds) (default : dict Q Q) (hx : heap * txs) (value : Q) (t : timing_in) (from to : option nat) (strict : bool) : res (heap * txs) :=
  let* timing := timing_arg default t in add_timed kd hx value timing from to strict.
(** subforecast.py:218-247 add_transactions *)
Definition add_transactions (kd : kinds) (default : dict Q Q) (hx : heap * txs) (l : dict Q Q) (from to : option nat) (strict : bool) : res (heap * txs) :=
  fold_left (fun r wv => let* hx := r in add_transaction kd default hx (snd wv) (TArg (WNum (fst wv))) from to strict) l (Ok hx).

(** ** The object *)
(** [s_objs]: TransactionDict objects by reference; [s_ref]: self._transactions; [s_hist]: the
    history dict of the recorded property [transactions], which stores references *)
Record sub : Type := {
  s_year : Z; s_hist : dict Z nat; s_objs : nat -> txs; s_ref : nat; s_invoked : bool; s_total : Q }.
Definition s_tx (s : sub) : txs := s_objs s (s_ref s).
Definition set_tx (s : sub) (x : txs) : sub :=
  {| s_year := s_year s; s_hist := s_hist s; s_objs := fun r => if Nat.eqb r (s_ref s) then x else s_objs s r; s_ref := s_ref s; s_invoked := s_invoked s; s_total := s_total s |}.
(** subforecast.py:130-154 *)
Definition new_sub (year : Z) : sub :=
  {| s_year := year; s_hist := []; s_objs := fun _ => []; s_ref := 0; s_invoked := false; s_total := 0 |}.
(** transactions_history[y] (ledger/recorded_property.py): the referenced object as it is now *)
Definition tx_history (s : sub) (y : Z) : option txs :=
  match dget Z.eqb (s_hist s) y with Some r => Some (s_objs s r) | None => if Z.eqb y (s_year s) then Some (s_tx s) else None end.
(** subforecast.py:161-174, ledger/base.py:94-111: record the reference, then clear the object *)
Definition next_year (s : sub) : sub :=
  let s1 := {| s_year := (s_year s + 1)%Z;
               s_hist := if dmem Z.eqb (s_hist s) (s_year s) then s_hist s else dset Z.eqb (s_hist s) (s_year s) (s_ref s);
               s_objs := s_objs s; s_ref := s_ref s; s_invoked := false; s_total := s_total s |} in
  set_tx s1 [].
(** subforecast.py:203-216 undo_transactions; the recorded transactions themselves are kept *)
Definition undo_one (h : heap) (ad : option nat * dict Q Q) : heap :=
  match fst ad with
  | Some a => fold_left (fun h tv => hset h a (incr (hget h a) (fst tv) (- snd tv))) (snd ad) h
  | None => h
  end.
Definition undo (h : heap) (s : sub) : heap := fold_left undo_one (s_tx s) h.
(** subforecast.py:176-201 SubForecast.__call__: what precedes the subclass's own work *)
Definition begin_call (kd : kinds) (h : heap) (s : sub) (available : nat) : heap * sub :=
  let h1 := if s_invoked s then undo h s else h in
  let total := match kd available with Some av => av_out av (hget h1 available) 1 | None => Qsum (dvals (hget h1 available)) end in
  (h1, {| s_year := s_year s; s_hist := s_hist s; s_objs := s_objs s; s_ref := s_ref s; s_invoked := true; s_total := total |}).
(** a subclass's own work: transactions, each decided after looking at the accounts *)
Inductive prog : Type := Done | Fail (e : err)
| Do (value : Q) (timing : timing_in) (from to : option nat) (strict : bool) (k : heap -> prog).
Fixpoint run (kd : kinds) (default : dict Q Q) (hx : heap * txs) (p : prog) : res (heap * txs) :=
  match p with
  | Done => Ok hx
  | Fail e => Err e
  | Do v t f to st k => let* hx := add_transaction kd default hx v t f to st in run kd default hx (k (fst hx))
  end.
Definition call (kd : kinds) (default : dict Q Q) (body : heap -> prog) (h : heap) (s : sub) (available : nat) : res (heap * sub) :=
  let (h1, s1) := begin_call kd h s available in
  let* (h2, x) := run kd default (h1, s_tx s1) (body h1) in
  Ok (h2, set_tx s1 x).
