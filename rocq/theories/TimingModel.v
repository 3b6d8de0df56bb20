(** Model of /repo/forecaster/utility/timing.py. *)
From Verif Require Import Base.
Local Open Scope string_scope.

(** Python argument [when] of [Timing.__init__] (timing.py:41): a number, a
    string, a plain dict of cash flows, or another Timing. *)
Inductive when_arg : Type :=
| WNum (q : Q) | WStr (s : string) | WDict (d : dict Q Q) | WTiming (d : dict Q Q).

(** Python argument [nper]/[frequency] (timing.py:437): None, a string code or a
    number. *)
Inductive freq_arg : Type := FNone | FStr (s : string) | FNum (q : Q).

(** timing.py:7 [WHEN_DEFAULT = 0.5] *)
Definition WHEN_DEFAULT : Q := 1 # 2.

(** timing.py:424-435 [FREQUENCY_MAPPING] *)
Definition FREQUENCY_MAPPING : dict string (option Z) :=
  [("C", None); ("D", Some 365); ("W", Some 52); ("BW", Some 26); ("SM", Some 24);
   ("M", Some 12); ("BM", Some 6); ("Q", Some 4); ("SA", Some 2); ("A", Some 1)]%Z.

(** Python's [int(x)] on a number: truncation towards zero. *)
Definition qtrunc (q : Q) : Z := Z.quot (Qnum q) (Zpos (Qden q)).

(** timing.py:381-420 [when_conv].  A string other than 'start'/'end' reaches the
    comparison [when > one] on line 417, which raises TypeError for str vs number. *)
Definition when_conv (w : when_arg) : res Q :=
  match w with
  | WStr s => if String.eqb s "end" then Ok 1
              else if String.eqb s "start" then Ok 0 else Err TypeError
  | WNum q => if Qlt_bool 1 q || Qlt_bool q 0 then Err ValueError else Ok q
  | WDict _ | WTiming _ => Err TypeError
  end.

(** timing.py:437-468 [frequency_conv] *)
Definition frequency_conv (f : freq_arg) : res (option Z) :=
  match f with
  | FNone => Ok None
  | FStr s => match dget String.eqb FREQUENCY_MAPPING s with
              | None => Err ValueError
              | Some n => Ok n
              end
  | FNum q => if negb (Qeq_bool q (inject_Z (qtrunc q))) then Err TypeError
              else if Qle_bool q 0 then Err ValueError
              else Ok (Some (qtrunc q))
  end.

(** Python [range(n)] as a list of integers *)
Definition zrange (n : Z) : list Z := map Z.of_nat (seq 0 (Z.to_nat n)).

(** timing.py:86-91: [for time in range(frequency): self[(time + when) / frequency] = weight] *)
Definition build_even (when : Q) (n : Z) : dict Q Q :=
  fold_left (fun d k => dset Qeq_bool d ((inject_Z k + when) / inject_Z n) (1 / inject_Z n))
            (zrange n) [].

(** Python [sorted(keys)]: insertion sort on numbers (stable; keys are distinct). *)
Fixpoint qinsert (x : Q) (l : list Q) : list Q :=
  match l with
  | [] => [x]
  | y :: r => if Qle_bool x y then x :: l else y :: qinsert x r
  end.
Fixpoint qsort (l : list Q) : list Q :=
  match l with [] => [] | x :: r => qinsert x (qsort r) end.

(** Python [min(iterable)] over numbers; None stands for the ValueError on an
    empty iterable. *)
Fixpoint qminl (l : list Q) : option Q :=
  match l with
  | [] => None
  | x :: r => match qminl r with None => Some x | Some m => Some (qmin x m) end
  end.

(** timing.py:284-289: cumulative value of all transactions to date. *)
Fixpoint accum_prefix (when : dict Q Q) (tally : Q) (ts : list Q) : dict Q Q :=
  match ts with
  | [] => []
  | t :: r => let tally' := tally + qval when t in (t, tally') :: accum_prefix when tally' r
  end.

(** timing.py:294-310: second loop.  [accum] is the dict mutated by the loop. *)
Fixpoint accum_inflows_loop (accum : dict Q Q) (ts : list Q) : dict Q Q :=
  match ts with
  | [] => []
  | t :: r =>
    match qminl (map snd (filter (fun kv => Qle_bool t (fst kv)) accum)) with
    | None => [] (* unreachable: [t] itself is a key of accum *)
    | Some m =>
      if Qlt_bool 0 m then
        (t, m) :: accum_inflows_loop
          (map (fun kv => if Qle_bool t (fst kv) then (fst kv, snd kv - m) else kv) accum) r
      else accum_inflows_loop accum r
    end
  end.

(** timing.py:241-310 [_accum_inflows] *)
Definition accum_inflows (when : dict Q Q) : dict Q Q :=
  let ts := qsort (dkeys when) in
  accum_inflows_loop (accum_prefix when 0 ts) ts.

(** timing.py:351-358 loop of [_accum_outflows] *)
Fixpoint accum_outflows_loop (when : dict Q Q) (accum : Q) (ts : list Q) : dict Q Q :=
  match ts with
  | [] => []
  | t :: r =>
    let accum' := accum + qval when t in
    if Qlt_bool accum' 0 then (t, - accum') :: accum_outflows_loop when 0 r
    else accum_outflows_loop when accum' r
  end.
(** timing.py:312-358 [_accum_outflows] *)
Definition accum_outflows (when : dict Q Q) : dict Q Q :=
  accum_outflows_loop when 0 (qsort (dkeys when)).

(** timing.py:173-239 [_convert_dict] *)
Definition convert_dict (when : dict Q Q) : dict Q Q :=
  match when with
  | [] => []
  | _ =>
    if forallb (fun v => Qeq_bool v 0) (dvals when) then map (fun kv => (fst kv, 1)) when
    else if forallb (fun v => Qle_bool 0 v) (dvals when) then when
    else if forallb (fun v => Qle_bool v 0) (dvals when) then
      map (fun kv => (fst kv, - snd kv)) when
    else
      let total := Qsum (dvals when) in
      if Qeq_bool total 0 then []
      else if Qlt_bool 0 total then accum_inflows when
      else accum_outflows when
  end.

(** timing.py:41-91 [Timing.__init__] (numeric precision conversion is the identity on
    the idealised numbers).  [one / None] on line 88 is a TypeError. *)
Definition Timing (when : when_arg) (frequency : freq_arg) : res (dict Q Q) :=
  match when with
  | WTiming d => Ok d
  | WDict d => Ok (convert_dict d)
  | _ =>
    let '(when', freq') :=
      match when with
      | WStr s => if dmem String.eqb FREQUENCY_MAPPING s
                  then (WNum WHEN_DEFAULT, FStr s) else (when, frequency)
      | _ => (when, frequency)
      end in
    let* w := when_conv when' in
    let* f := frequency_conv freq' in
    match f with
    | None => Err TypeError
    | Some n => Ok (build_even w n)
    end
  end.

(** [sum(self[key] for key in keys)] with KeyError *)
Fixpoint sum_keys (d : dict Q Q) (ks : list Q) : res Q :=
  match ks with
  | [] => Ok 0
  | k :: r => let* v := dget_r Qeq_bool d k in let* s := sum_keys d r in Ok (v + s)
  end.
(** [{key: self[key] / n for key in keys}] *)
Fixpoint div_keys (d : dict Q Q) (n : Q) (ks : list Q) (out : dict Q Q) : res (dict Q Q) :=
  match ks with
  | [] => Ok out
  | k :: r => let* v := dget_r Qeq_bool d k in
              let* x := qdiv v n in div_keys d n r (dset Qeq_bool out k x)
  end.

(** timing.py:93-118 [Timing._normalized] *)
Definition normalized_dict (d : dict Q Q) (keys : option (list Q)) : res (dict Q Q) :=
  let ks := match keys with Some l => l | None => dkeys d end in
  let* n := sum_keys d ks in div_keys d n ks [].

(** timing.py:120-139 [Timing.normalized] *)
Definition normalized (d : dict Q Q) (keys : option (list Q)) : res (dict Q Q) :=
  let* r := normalized_dict d keys in Ok (convert_dict r).

(** timing.py:141-171 [Timing.time_series] *)
Definition time_series (d : dict Q Q) (scalar : Q) (keys : option (list Q)) : res (dict Q Q) :=
  let* r := normalized_dict d keys in Ok (map (fun kv => (fst kv, snd kv * scalar)) r).

(** timing.py:360-379 [transactions_from_timing] for a [Timing] argument. *)
Definition transactions_from_timing (d : dict Q Q) (total : Q) : res (dict Q Q) :=
  let n := Qsum (dvals d) in
  match d with
  | [] => Ok []
  | _ => if Qeq_bool n 0 then Err ZeroDivisionError
         else Ok (map (fun kv => (fst kv, total * (snd kv / n))) d)
  end.

(** timing.py:470-498 [add_transactions]; returns the mutated [base]. *)
Definition add_transactions (base added : dict Q Q) : dict Q Q :=
  fold_left (fun b kv =>
    match dget Qeq_bool b (fst kv) with
    | Some v => dset Qeq_bool b (fst kv) (v + snd kv)
    | None => dset Qeq_bool b (fst kv) (snd kv)
    end) added base.

(** timing.py:500-527 [subtract_transactions]; returns the mutated [base]. *)
Definition subtract_transactions (base added : dict Q Q) : dict Q Q :=
  fold_left (fun b kv =>
    match dget Qeq_bool b (fst kv) with
    | Some v => dset Qeq_bool b (fst kv) (v - snd kv)
    | None => dset Qeq_bool b (fst kv) (- snd kv)
    end) added base.
