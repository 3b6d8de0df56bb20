(** Model of forecast/subforecast.py [SubForecast] with the Python types of the numbers (see KindModel.v: int, float, the type made by
    high_precision).  The definitions follow those of SubModel.v, which leaves the types out; [va] of everything computed here is what is
    computed there.  Amounts and times have types; comparisons never fail, [+], [-], [*] and [/] of a float and a high-precision number do.
    Simplified: as in SubModel.v; [timing] arguments that are dicts and no Timing objects are not modelled with types. *)
From Verif Require Import Base InflationModel RBase KindModel KindTaxModel.
From Verif Require TimingModel SubModel.
Open Scope Q_scope.
Local Open Scope string_scope.

Definition kflows : Type := list (qn * qn).
Definition kheap : Type := dict nat kflows.
(** an [Account]'s answers, as in SubModel.v ([acct_view]); each may fail *)
Record kview : Type := {
  kv_out : kflows -> qn -> res qn;
  kv_outs : kflows -> qn -> res qn;
  kv_time : kflows -> qn -> qn -> res (option qn) }.
Definition kkinds : Type := nat -> option kview.
Definition kneg (a : qn) : qn := Num (kd a) (- va a).
(** Python's [sum]: from the int 0.  Simplified: added from the right; whether there is a TypeError, the value and the type are the same *)
Fixpoint kqsum (l : list qn) : res qn := match l with [] => Ok (whole 0) | x :: r => let* s := kqsum r in qadd x s end.

(** ** Timing(when, high_precision=...) for a number or text (utility/timing.py:41-91, 381-468; see [timing] in KindModel.v) *)
Inductive ktime : Type := QNum (t : qn) | QText (s : string).
(** timing.py:381-420: numbers are returned as they are *)
Definition kwhen_conv (hp : bool) (w : ktime) : res qn :=
  match w with
  | QText s => if String.eqb s "end" then Ok (conv hp (whole 1))
               else if String.eqb s "start" then Ok (conv hp (whole 0)) else Err TypeError
  | QNum t => if Qlt_bool 1 (va t) || Qlt_bool (va t) 0 then Err ValueError else Ok t
  end.
(** timing.py:86-91 *)
Definition kbuild (hp : bool) (t : qn) (n : Z) : res kflows :=
  let* w := kqdiv (conv hp (whole 1)) (whole (inject_Z n)) in
  fold_left (fun r k => let* d := r in
                        let* s := qadd (whole (inject_Z k)) t in
                        let* key := kqdiv s (whole (inject_Z n)) in Ok (dset keq d key w)) (TimingModel.zrange n) (Ok []).
(** timing.py:79-91: a frequency code replaces [when] by WHEN_DEFAULT, a float *)
Definition ktiming (hp : bool) (w : ktime) : res kflows :=
  let code := match w with QText s => if dmem String.eqb TimingModel.FREQUENCY_MAPPING s then Some s else None | QNum _ => None end in
  let* t := kwhen_conv hp (match code with Some _ => QNum (Num Float (1 # 2)) | None => w end) in
  let* n := match code with
            | None => Ok 1%Z
            | Some s => match dget String.eqb TimingModel.FREQUENCY_MAPPING s with
                        | None => Err ValueError
                        | Some None => Err TypeError       (* one / None *)
                        | Some (Some n) => Ok n
                        end
            end in
  kbuild hp t n.
(** timing.py:53-63, subforecast.py:138-139: [Timing(high_precision=...)] *)
Definition kdefault (hp : bool) : res kflows := kbuild hp (conv hp (Num Float (1 # 2))) 1.

(** ** Finding a time *)
Definition khget (h : kheap) (a : nat) : kflows := match dget Nat.eqb h a with Some d => d | None => [] end.
Definition khset (h : kheap) (a : nat) (d : kflows) : kheap := dset Nat.eqb h a d.
(** subforecast.py:350-354, 366-370, 209: [d[when] += v], or [d[when] = v] for a new time (for the recorded transactions, [0 + v]) *)
Definition kincr (d : kflows) (t v : qn) : res kflows :=
  match dget keq d t with Some y => let* s := qadd y v in Ok (dset keq d t s) | None => Ok (dset keq d t v) end.
(** subforecast.py:386 *)
Definition kkeys_with (d : kflows) (w : qn) : list qn := if dmem keq d w then dkeys d else dkeys d ++ [w].
(** subforecast.py:388-393 *)
Definition kupto (d : kflows) (t : qn) : res qn := kqsum (map snd (filter (fun kv => Qle_bool (va (fst kv)) (va t)) d)).
Definition kaccum_plain (d : kflows) (w : qn) : res kflows :=
  mapM (fun t => let* s := kupto d t in Ok (t, s)) (filter (fun t => Qle_bool (va w) (va t)) (kkeys_with d w)).
(** subforecast.py:442-473 *)
Definition kval (d : kflows) (t : qn) : Q := match dget keq d t with Some v => va v | None => 0 end.
Fixpoint kinterpolate (kv : kview) (d : kflows) (target : qn) (known : kflows) (times : list qn) (accum : kflows) : res kflows :=
  match times with
  | earlier :: ((later :: _) as r) =>
      let l := kval known later in let e := kval known earlier in let g := va target in
      let* accum' :=
        if (Qlt_bool g l && Qlt_bool e g) || (Qlt_bool l g && Qlt_bool g e) then
          let* o := kv_time kv d target earlier in
          match o with
          | Some t => if Qlt_bool (va earlier) (va t) && Qlt_bool (va t) (va later)
                      then let* m := kv_outs kv d t in Ok (dset keq accum t (kneg m)) else Ok accum
          | None => Ok accum
          end
        else Ok accum in
      kinterpolate kv d target known r accum'
  | _ => Ok accum
  end.
(** subforecast.py:407-474 *)
Definition kaccum_account (kv : kview) (d : kflows) (w target : qn) : res kflows :=
  let* known := mapM (fun t => let* m := kv_out kv d t in Ok (t, kneg m)) (filter (fun t => Qle_bool (va w) (va t)) (kkeys_with d w)) in
  kinterpolate kv d target known (ksort (dkeys known)) known.
(** subforecast.py:398-405 *)
Definition keligible (accum : kflows) (value t : qn) : bool :=
  forallb (fun rx => negb (Qle_bool (va t) (va (fst rx))) || Qle_bool (va value) (va (snd rx))) accum.
Fixpoint kminl (l : list qn) : option qn :=
  match l with [] => None | x :: r => match kminl r with None => Some x | Some m => Some (kmin2 x m) end end.
Definition kearliest (accum : kflows) (value w : qn) : qn :=
  match kminl (filter (keligible accum value) (dkeys accum)) with Some t => t | None => w end.
(** subforecast.py:372-405 *)
Definition kshift_when (ks : kkinds) (h : kheap) (value w : qn) (a : nat) : res qn :=
  let d := khget h a in
  let* accum := match ks a with Some kv => kaccum_account kv d w value | None => kaccum_plain d w end in
  Ok (kearliest accum value w).

(** ** Transactions *)
Definition ktxs : Type := dict (option nat) kflows.
Definition ktget (x : ktxs) (a : option nat) : kflows := match dget SubModel.oeqb x a with Some d => d | None => [] end.
Definition kbook (x : ktxs) (a : option nat) (t v : qn) : res ktxs := let* d := kincr (ktget x a) t v in Ok (dset SubModel.oeqb x a d).
Definition kpost (h : kheap) (a : option nat) (t v : qn) : res kheap :=
  match a with Some i => let* d := kincr (khget h i) t v in Ok (khset h i d) | None => Ok h end.
(** subforecast.py:326-370 *)
Definition kadd_one (ks : kkinds) (hx : kheap * ktxs) (value w : qn) (from to : option nat) (strict : bool) : res (kheap * ktxs) :=
  let (h, x) := hx in
  let* w := match from with Some a => if strict then Ok w else kshift_when ks h value w a | None => Ok w end in
  let* h1 := kpost h from w (kneg value) in
  let* x1 := kbook x from w (kneg value) in
  let* h2 := kpost h1 to w value in
  let* x2 := kbook x1 to w value in Ok (h2, x2).
(** subforecast.py:310-324, for the Timing [timing] *)
Definition kadd_timed (ks : kkinds) (hx : kheap * ktxs) (value : qn) (timing : kflows) (from to : option nat) (strict : bool) : res (kheap * ktxs) :=
  let swap := Qlt_bool (va value) 0 in
  let (f, t) := if swap then (to, from) else (from, to) in
  let v := if swap then kneg value else value in
  let* total := kqsum (dvals timing) in
  fold_left (fun r tw => let* hx := r in let* share := kqdiv (snd tw) total in let* s := qmul v share in
                         kadd_one ks hx s (fst tw) f t strict) timing (Ok hx).
(** subforecast.py:298-306: the default timing, a Timing object, or an argument [Timing] is applied to *)
Inductive ktiming_in : Type := KDefault | KObj (d : kflows) | KArg (w : ktime).
Definition ktiming_arg (hp : bool) (default : kflows) (t : ktiming_in) : res kflows :=
  match t with KDefault => Ok default | KObj d => Ok d | KArg w => ktiming hp w end.
(** subforecast.py:249-324 *)
Definition kadd_transaction (hp : bool) (ks : kkinds) (default : kflows) (hx : kheap * ktxs) (value : qn) (t : ktiming_in)
    (from to : option nat) (strict : bool) : res (kheap * ktxs) :=
  let* timing := ktiming_arg hp default t in kadd_timed ks hx value timing from to strict.
(** subforecast.py:218-247 *)
Definition kadd_transactions (hp : bool) (ks : kkinds) (default : kflows) (hx : kheap * ktxs) (l : kflows)
    (from to : option nat) (strict : bool) : res (kheap * ktxs) :=
  fold_left (fun r wv => let* hx := r in kadd_transaction hp ks default hx (snd wv) (KArg (QNum (fst wv))) from to strict) l (Ok hx).
(** subforecast.py:203-209: [account[when] -= value] for everything recorded *)
Definition kundo_one (r : res kheap) (ad : option nat * kflows) : res kheap :=
  match fst ad with
  | Some a => fold_left (fun r tv => let* h := r in let* d := kincr (khget h a) (fst tv) (kneg (snd tv)) in Ok (khset h a d)) (snd ad) r
  | None => r
  end.
Definition kundo (h : kheap) (x : ktxs) : res kheap := fold_left kundo_one x (Ok h).
(** subforecast.py:188-201: the total available *)
Definition ktotal_available (ks : kkinds) (h : kheap) (a : nat) : res qn :=
  match ks a with Some kv => kv_out kv (khget h a) (whole 1) | None => kqsum (dvals (khget h a)) end.
