(** Model of accounts/base.py, accounts/util.py and utility/timing.py with the Python types of the numbers: int, float and
    the type made by [high_precision] (Decimal is the example everywhere).  Arithmetic between the latter and a float is a
    TypeError (utility/precision.py:165-171), comparisons are not; int / int is a float.
    The other models leave the types out.  Simplified: exact arithmetic, as everywhere in the R models; [high_precision] converts
    exactly; powers are of positive bases (see [rate_ok] in GrowthModel.v). *)
From Verif Require Import Base RBase GrowthModel.
From Verif Require AccountModel TimingModel.
Open Scope R_scope.
Local Open Scope string_scope.

Inductive kind : Set := Int | Float | High.
(** a number of type [kd]; [A] is [R], or [er] where it may be infinite *)
Record num (A : Type) : Type := Num { kd : kind; va : A }.
Arguments Num {A}. Arguments kd {A}. Arguments va {A}.
Definition int (x : R) : num R := Num Int x.
(** the type of the result of +, -, * and ** *)
Definition mix (a b : kind) : option kind :=
  match a, b with
  | High, Float | Float, High => None
  | High, _ | _, High => Some High
  | Float, _ | _, Float => Some Float
  | Int, Int => Some Int
  end.
Definition lift {A B C} (f : A -> B -> C) (a : num A) (b : num B) : res (num C) :=
  match mix (kd a) (kd b) with Some k => Ok (Num k (f (va a) (va b))) | None => Err TypeError end.
Definition kadd := lift Rplus.
Definition ksub := lift Rminus.
Definition kmul := lift Rmult.
Definition kpow := lift Rpower.
(** [a / b] *)
Definition kdiv {A} (f : A -> R -> A) (a : num A) (b : num R) : res (num A) :=
  match mix (kd a) (kd b) with
  | None => Err TypeError
  | Some k => if Reqb (va b) 0 then Err ZeroDivisionError
              else Ok (Num (match k with Int => Float | _ => k end) (f (va a) (va b)))
  end.
(** [math.log(a, b)]: both are converted to floats *)
Definition klog (a b : num R) : res (num R) :=
  if Rleb (va a) 0 then Err ValueError else Ok (Num Float (ln (va a) / ln (va b))).
(** Python's [min(a, b)] and [max(a, b)]: the first of equals *)
Definition kmin (a b : num er) : num er := if eleb (va a) (va b) then a else b.
Definition kmax (a b : num er) : num er := if eleb (va b) (va a) then a else b.
(** utility/precision.py:207-224 [precision_convert]; [hp]: whether high_precision was given *)
Definition conv {A} (hp : bool) (a : num A) : num A := if hp then Num High (va a) else a.

(** a [when] argument *)
Inductive kwhen : Type := KNum (t : num R) | KText (s : string).
(** utility/timing.py:381-420 [when_conv] *)
Definition when_conv (hp : bool) (w : kwhen) : res (num R) :=
  match w with
  | KText s => if String.eqb s "end" then Ok (conv hp (int 1))
               else if String.eqb s "start" then Ok (conv hp (int 0)) else Err TypeError
  | KNum t => if (Rltb 1 (va t) || Rltb (va t) 0)%bool then Err ValueError else Ok t
  end.

(** the first argument of [Timing]: left out, a number or text *)
Inductive kfirst : Type := Omitted | Given (w : kwhen).
(** utility/timing.py:41-91 [Timing(when, frequency)], for arguments that are no dict (TimingModel.v has the dicts).
    WHEN_DEFAULT is the float 0.5, and only that very object is converted (line 55); [frequency]: a whole number or a code;
    it ends up as an int whatever it was (lines 57-58, 84, 468). *)
Definition timing (hp : bool) (when : kfirst) (frequency : positive + string) : res (list (num R * num R)) :=
  let half := Num Float (1/2) in
  let when0 := match when with Omitted => KNum (conv hp half) | Given w => w end in
  let coded := match when0 with KText s => if dmem String.eqb TimingModel.FREQUENCY_MAPPING s then Some s else None | KNum _ => None end in
  let frequency := match coded with Some s => inr s | None => frequency end in
  let when1 := match coded with Some _ => KNum half | None => when0 end in
  let* t := when_conv hp when1 in
  let* n := match frequency with
            | inl n => Ok (Zpos n)
            | inr s => match dget String.eqb TimingModel.FREQUENCY_MAPPING s with
                       | Some (Some n) => Ok n
                       | Some None => Err TypeError          (* one / None *)
                       | None => Err ValueError
                       end
            end in
  let f := int (IZR n) in
  let* weight := kdiv Rdiv (conv hp (int 1)) f in
  let fix build (times : list nat) : res (list (num R * num R)) :=
    match times with
    | [] => Ok []
    | i :: r => let* s := kadd (int (INR i)) t in
                let* key := kdiv Rdiv s f in
                let* d := build r in Ok ((key, weight) :: d)
    end in
  build (seq 0 (Z.to_nat n)).

(** accounts/util.py:19-73 [accumulation_function] *)
Definition accumulation_function (hp : bool) (t rate : num R) (nper : option (num R)) : res (num R) :=
  match nper with
  | None => let* x := kmul rate t in kpow (conv hp (Num Float (exp 1))) x
  | Some n =>
      let n := match kd n with Int => if (hp && Reqb (va n) 1)%bool then conv hp (int 1) else n | _ => n end in
      let* q := kdiv Rdiv rate n in
      let* b := kadd (conv hp (int 1)) q in
      let* x := kmul n t in
      kpow b x
  end.
(** accounts/util.py:75-125 [accumulation_function_inverse] *)
Definition accumulation_function_inverse (hp : bool) (accum rate : num R) (nper : option (num R)) : res (num er) :=
  if Rltb (va accum) 0 then Err ValueError
  else if Reqb (va rate) 0 then
    Ok (if Reqb (va accum) 1 then conv hp (Num Int (Fin 0)) else if Rltb (va accum) 1 then conv hp (Num Float MInf) else conv hp (Num Float PInf))
  else
    let* t := match nper with
              | None => let* l := klog accum (conv hp (Num Float (exp 1))) in kdiv Rdiv l rate
              | Some n => let* q := kdiv Rdiv rate n in
                          let* b := kadd (conv hp (int 1)) q in
                          let* l := klog accum b in kdiv Rdiv l n
              end in
    Ok (Num (kd t) (Fin (va t))).
(** accounts/util.py:127-150 [value_at_time] *)
Definition value_at_time (hp : bool) (value rate : num R) (now time : kwhen) (nper : option (num R)) : res (num R) :=
  let* t := when_conv hp time in
  let* n := when_conv hp now in
  let* d := ksub t n in
  let* g := accumulation_function hp d rate nper in
  kmul value g.
(** accounts/util.py:153-168 [time_to_value] *)
Definition time_to_value (hp : bool) (rate value_now value_then : num R) (nper : option (num R)) : res (num er) :=
  let* a := kdiv Rdiv value_then value_now in
  accumulation_function_inverse hp a rate nper.

(** ** Accounts (accounts/base.py:100-175), as in AccountModel.v; [q_hp]: whether high_precision was given.  The compounding
    frequency is converted (base.py:337-344). *)
Notation kdict := (list (num R * num R)).
Record kaccount : Type := {
  q_hp : bool;
  q_year : Z;
  q_bal : num R;
  q_rate : Z -> num R;
  q_nper : option positive;
  q_txns : kdict;
  q_timing : kdict
}.
Definition rate (a : kaccount) : num R := q_rate a (q_year a).
Definition nper (a : kaccount) : option (num R) := option_map (fun n => conv (q_hp a) (int (IZR (Zpos n)))) (q_nper a).
Definition with_txns (a : kaccount) (d : kdict) : kaccount :=
  {| q_hp := q_hp a; q_year := q_year a; q_bal := q_bal a; q_rate := q_rate a; q_nper := q_nper a; q_txns := d; q_timing := q_timing a |}.
(** numbers of different types are the same dict key if they are equal; the key that is there stays *)
Definition keq (a b : num R) : bool := Reqb (va a) (va b).
(** [d[k] += v], for a dict whose missing values are [zero] *)
Definition kincr (zero : num R) (d : kdict) (k v : num R) : res kdict :=
  let* s := kadd (match dget keq d k with Some w => w | None => zero end) v in Ok (dset keq d k s).
(** base.py:346-368 [add_transaction]; base.py:160-161 *)
Definition add_transaction (a : kaccount) (value : num R) (when : kwhen) : res kaccount :=
  let* t := when_conv (q_hp a) when in
  let* d := kincr (conv (q_hp a) (int 0)) (q_txns a) t value in
  Ok (with_txns a d).
(** Python's [sum], from [s] *)
Fixpoint ksum (s : num R) (l : list (num R)) : res (num R) :=
  match l with [] => Ok s | v :: r => let* s' := kadd s v in ksum s' r end.
(** base.py:370-386 [inflows], [outflows] *)
Definition flows (keep : R -> bool) (a : kaccount) (extra : option kdict) : res (num R) :=
  let kept (d : kdict) := filter (fun v => keep (va v)) (map snd d) in
  let* s := match extra with Some d => ksum (int 0) (kept d) | None => Ok (conv (q_hp a) (int 0)) end in
  let* u := ksum (int 0) (kept (q_txns a)) in
  kadd s u.
Definition inflows := flows (fun v => Rltb 0 v).
Definition outflows := flows (fun v => Rltb v 0).
(** utility/timing.py:470-498 [add_transactions] *)
Fixpoint add_transactions (base added : kdict) : res kdict :=
  match added with
  | [] => Ok base
  | (k, v) :: r =>
      let* base' := match dget keq base k with
                    | Some w => let* s := kadd w v in Ok (dset keq base k s)
                    | None => Ok (dset keq base k v)
                    end in
      add_transactions base' r
  end.
(** [for when in d: s += f(when, d[when])] *)
Fixpoint ktotal (f : num R -> num R -> res (num R)) (s : num R) (d : kdict) : res (num R) :=
  match d with [] => Ok s | (w, v) :: r => let* x := f w v in let* s' := kadd s x in ktotal f s' r end.
(** base.py:889-923 [balance_at_time] *)
Definition balance_at_time (a : kaccount) (time : kwhen) (extra : option kdict) : res (num R) :=
  let* t := when_conv (q_hp a) time in
  let* b := value_at_time (q_hp a) (q_bal a) (rate a) (KText "start") (KNum t) (nper a) in
  let* d := match extra with Some d => add_transactions d (q_txns a) | None => Ok (q_txns a) end in
  ktotal (fun w v => value_at_time (q_hp a) v (rate a) (KNum w) (KNum t) (nper a)) b
         (filter (fun kv => Rleb (va (fst kv)) (va t)) d).
(** base.py:302-330 [returns] *)
Definition returns (a : kaccount) : res (num R) :=
  let one := conv (q_hp a) (int 1) in
  let gain (t v : num R) := let* g := accumulation_function (q_hp a) t (rate a) (nper a) in let* h := ksub g one in kmul v h in
  let* r := gain one (q_bal a) in
  let* r := ktotal (fun w v => let* t := ksub one w in gain t v) r (q_txns a) in
  Ok (conv (q_hp a) r).
(** base.py:218-249 [balance] in the next year; base.py:388-406 [next_year] *)
Definition next_balance (a : kaccount) : res (num R) :=
  let r := q_rate a (q_year a + 1)%Z in
  let* b := value_at_time (q_hp a) (q_bal a) r (KText "start") (KText "end") (nper a) in
  ktotal (fun w v => value_at_time (q_hp a) v r (KNum w) (KText "end") (nper a)) b (q_txns a).
Definition next_year (a : kaccount) : res kaccount :=
  let* b := next_balance a in
  Ok {| q_hp := q_hp a; q_year := (q_year a + 1)%Z; q_bal := b; q_rate := q_rate a; q_nper := q_nper a; q_txns := []; q_timing := q_timing a |}.
(** base.py:485-610 [transactions_to_balance], [timing] a Timing *)
Definition normalized (hp : bool) (d : kdict) : res kdict :=
  let* total := ksum (int 0) (map snd d) in
  let '(d, total) := if Reqb (va total) 0 then (map (fun kv => (fst kv, conv hp (int 1))) d, int (INR (List.length d))) else (d, total) in
  let fix go (d : kdict) : res kdict :=
    match d with
    | [] => Ok []
    | (w, v) :: r => if Reqb (va v) 0 then go r else let* x := kdiv Rdiv v total in let* d := go r in Ok ((w, x) :: d)
    end in
  go d.
Definition transactions_to_balance (a : kaccount) (target : num er) (timing : option kdict) (max_total min_total : option (num er)) (extra : option kdict)
    : res (list (num R * num er)) :=
  let* ref := balance_at_time a (KText "end") extra in
  let* change := lift esub target ref in
  let* nt := normalized (q_hp a) (match timing with None | Some [] => q_timing a | Some d => d end) in
  let* accum := ktotal (fun w v => let* t := ksub (int 1) w in
                                   let* g := accumulation_function (q_hp a) t (rate a) (nper a) in kmul v g)
                       (conv (q_hp a) (int 0)) nt in
  let* total := kdiv ediv change accum in
  let total := match max_total with Some m => kmin total m | None => total end in
  let total := match min_total with Some m => kmax total m | None => total end in
  let fix go (d : kdict) : res (list (num R * num er)) :=
    match d with [] => Ok [] | (w, v) :: r => let* x := lift escale total v in let* l := go r in Ok ((w, x) :: l) end in
  go nt.
(** base.py:408-455, 612-670 [max_outflows] and 672-724 [max_inflows] of a plain account *)
Definition max_outflows (a : kaccount) (timing : option kdict) (transaction_limit balance_limit : option (num er)) (extra : option kdict) :=
  let zero := conv (q_hp a) (Num Int (Fin 0)) in
  let* o := outflows a extra in
  let* m := lift esub (conv (q_hp a) (Num Float MInf)) o in
  let m := match transaction_limit with Some l => kmax m l | None => m end in
  transactions_to_balance a (match balance_limit with Some b => b | None => zero end) timing (Some zero) (Some (kmin m zero)) extra.
Definition max_inflows (a : kaccount) (timing : option kdict) (transaction_limit balance_limit : option (num er)) (extra : option kdict) :=
  let zero := conv (q_hp a) (Num Int (Fin 0)) in
  let* o := inflows a extra in
  let* m := lift esub (conv (q_hp a) (Num Float PInf)) o in
  let m := match transaction_limit with Some l => kmin m l | None => m end in
  transactions_to_balance a (match balance_limit with Some b => b | None => conv (q_hp a) (Num Float PInf) end) timing (Some (kmax m zero)) (Some zero) extra.
(** base.py:925-962 [time_to_balance]; [n] bounds the recursion, see AccountModel.v *)
Definition earliest_after (d : kdict) (when : num R) : option (num R) :=
  match filter (fun t => Rltb (va when) (va t)) (map fst d) with
  | [] => None
  | t :: r => Some (fold_left (fun a b => if Rltb (va b) (va a) then b else a) r t)
  end.
Fixpoint time_to_balance_from (n : nat) (a : kaccount) (value when : num R) : res (num er) :=
  let* balance := balance_at_time a (KNum when) None in
  let* d := time_to_value (q_hp a) (rate a) balance value (nper a) in
  let* time := lift (fun w d => eadd (Fin w) d) when d in
  match earliest_after (q_txns a) when with
  | Some t => if negb (eleb (va time) (Fin (va t)))
              then match n with O => Err StopIteration | S m => time_to_balance_from m a value t end
              else Ok time
  | None => Ok time
  end.
Definition time_to_balance (a : kaccount) (value : num R) (when : kwhen) : res (num er) :=
  let* t := when_conv (q_hp a) when in time_to_balance_from (List.length (q_txns a)) a value t.
