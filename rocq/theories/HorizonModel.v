(** Model of /repo/forecaster/forecast/base.py: Forecast, the driver over the years. *)
From Verif Require Import Base TimingModel SubModel ForecastsModel.

(** what is done to the parts of a forecast, in order *)
Inductive event : Type :=
| Call (i : nat) (year : Z)        (* sub-forecast i is called; year: the forecast's *)
| NextSub (i : nat) (year : Z)     (* the part's next_year is called; year: the part's, before *)
| NextPerson (i : nat) (year : Z)
| NextAccount (i : nat) (year : Z).

(** the forecast's surroundings: [W] is the state of people, accounts and sub-forecasts;
    sub-forecasts act on it and on `available`; next_year methods act on it; tax_adjustment (None: no
    such attribute, base.py:224-227) and the two timings (None: no such attribute, base.py:247-255)
    are read from it *)
Record env (W : Type) : Type := {
  e_call : nat -> W -> dict Q Q -> res (W * dict Q Q);
  e_next : event -> W -> W;
  e_adj : W -> res (option Q);
  e_refund : W -> option (dict Q Q);
  e_pay : W -> option (dict Q Q) }.
Arguments e_call {W}. Arguments e_next {W}. Arguments e_adj {W}. Arguments e_refund {W}. Arguments e_pay {W}.

(** years of the forecast and of each part; log of what was done, oldest first *)
Record fstate (W : Type) : Type := {
  f_year : Z; f_avail : dict Q Q; f_world : W;
  f_subs : list Z; f_people : list Z; f_accts : list Z; f_log : list event }.
Arguments f_year {W}. Arguments f_avail {W}. Arguments f_world {W}. Arguments f_subs {W}. Arguments f_people {W}. Arguments f_accts {W}. Arguments f_log {W}.

(** base.py:186-189 call_subforecasts; [n] sub-forecasts (five: base.py:156-161) *)
Fixpoint call_from {W} (e : env W) (i : nat) (n : nat) (s : fstate W) : res (fstate W) :=
  match n with
  | O => Ok s
  | S m =>
      let* (w, a) := e_call e i (f_world s) (f_avail s) in
      call_from e (S i) m {| f_year := f_year s; f_avail := a; f_world := w; f_subs := f_subs s; f_people := f_people s; f_accts := f_accts s;
                             f_log := f_log s ++ [Call i (f_year s)] |}
  end.
Definition call_subforecasts {W} (e : env W) (s : fstate W) : res (fstate W) := call_from e 0 (Datatypes.length (f_subs s)) s.

(** [while x.this_year < year: x.next_year()] (base.py:203-204, 208-209, 211-212): the number of turns
    is the difference of the years *)
Fixpoint catch_up {W} (e : env W) (ev : Z -> event) (turns : nat) (y : Z) (w : W) (log : list event) : Z * W * list event :=
  match turns with
  | O => (y, w, log)
  | S t => catch_up e ev t (y + 1) (e_next e (ev y) w) (log ++ [ev y])
  end.
Definition turns (y year : Z) : nat := Z.to_nat (year - y).
(** the loops over the parts of one kind *)
Fixpoint advance {W} (e : env W) (ev : nat -> Z -> event) (i : nat) (ys : list Z) (year : Z) (w : W) (log : list event) : list Z * W * list event :=
  match ys with
  | [] => ([], w, log)
  | y :: r =>
      let '(y', w', log') := catch_up e (ev i) (turns y year) y w log in
      let '(r', w'', log'') := advance e ev (S i) r year w' log' in
      (y' :: r', w'', log'')
  end.

(** base.py:233-237 *)
Definition carryover_overflow (avail prev : dict Q Q) : dict Q Q := incr avail 0 (Qsum (dvals prev)).
(** base.py:239-260 *)
Definition carryover_tax {W} (e : env W) (w : W) (avail : dict Q Q) (adj : option Q) : res (dict Q Q) :=
  match adj with
  | None => Ok avail
  | Some a =>
      if Qlt_bool 0 a then
        let* tm := match e_refund e w with Some t => Ok t | None => Timing (WNum 0) (FNum 1) end in
        let* ts := time_series tm a None in Ok (TimingModel.add_transactions avail ts)
      else if Qlt_bool a 0 then
        let* tm := match e_pay e w with Some t => Ok t | None => Timing (WNum 0) (FNum 1) end in
        let* ts := time_series tm a None in Ok (TimingModel.add_transactions avail ts)
      else Ok avail
  end.
(** base.py:191-218 next_year; the recorded values themselves are modelled in LedgerModel *)
Definition next_year {W} (e : env W) (s : fstate W) : res (fstate W) :=
  let prev := f_avail s in
  let* adj := e_adj e (f_world s) in
  let year := (f_year s + 1)%Z in
  let '(subs, w1, l1) := advance e NextSub 0 (f_subs s) year (f_world s) (f_log s) in
  let '(people, w2, l2) := advance e NextPerson 0 (f_people s) year w1 l1 in
  let '(accts, w3, l3) := advance e NextAccount 0 (f_accts s) year w2 l2 in
  let a1 := carryover_overflow [] prev in
  let* a2 := carryover_tax e w3 a1 adj in
  Ok {| f_year := year; f_avail := a2; f_world := w3; f_subs := subs; f_people := people; f_accts := accts; f_log := l3 |}.
(** base.py:166-168, n turns of the loop *)
Fixpoint run_years {W} (e : env W) (n : nat) (s : fstate W) : res (fstate W) :=
  match n with
  | O => Ok s
  | S m => let* s1 := call_subforecasts e s in let* s2 := next_year e s1 in run_years e m s2
  end.
(** base.py:163-169: [last] is max(scenario) *)
Definition run_forecast {W} (e : env W) (last : Z) (s : fstate W) : res (fstate W) :=
  let* s1 := run_years e (turns (f_year s) last) s in call_subforecasts e s1.

(** base.py:262-277; [max(..., default=None).year] fails if nobody has a retirement date *)
Definition retirement_year (people : list person) : res Z :=
  match fold_right (fun p acc => match p_retire p, acc with Some y, Some m => Some (Z.max y m) | Some y, None => Some y | None, _ => acc end) None people with
  | Some y => Ok y
  | None => Err AttributeError
  end.
(** base.py:289-295 *)
Definition reported_savings (income living : Q) : Q := qmax (income - living) 0.

(** ** The five sub-forecasts in a Forecast *)
(** `available` is object 0; the world is the accounts' transactions, the people, the sub-forecasts' state
    and ([hh_rest], of any type) everything else that strategies, accounts, people and the tax treatment
    read: balances, rates, contribution room, ages, caches *)
Record world (X : Type) : Type := {
  hh_rest : X; hh_heap : heap; hh_people : list person; hh_income : sub; hh_living : sub; hh_saving : sub; hh_withdrawal : wsub }.
Arguments hh_rest {X}. Arguments hh_heap {X}. Arguments hh_people {X}. Arguments hh_income {X}. Arguments hh_living {X}. Arguments hh_saving {X}. Arguments hh_withdrawal {X}.
(** the strategies and the parts of the people and accounts not modelled here; next_year of a person or
    account may change the rest of the world in any way *)
Record config (X : Type) : Type := {
  c_kinds : kinds;
  c_default : dict Q Q;                                  (* asset_sale_timing *)
  c_living : X -> list person -> Z -> res Q;             (* living_expenses, by people and year *)
  c_save : X -> heap -> res plan; c_withdraw : X -> heap -> res plan;
  c_wh : X -> withheld_fn; c_owing : X -> heap -> list person -> res Q;
  c_refund : option (dict Q Q); c_pay : option (dict Q Q);
  c_next : event -> X * heap * list person -> X * heap * list person }.
Arguments c_kinds {X}. Arguments c_default {X}. Arguments c_living {X}. Arguments c_save {X}. Arguments c_withdraw {X}. Arguments c_wh {X}.
Arguments c_owing {X}. Arguments c_refund {X}. Arguments c_pay {X}. Arguments c_next {X}.
(** base.py:156-161, 186-189: the calls, in order; a TaxForecast's call is inherited and moves no money *)
Definition real_call {X} (c : config X) (i : nat) (w : world X) (a : dict Q Q) : res (world X * dict Q Q) :=
  let h := hset (hh_heap w) 0 a in
  match i with
  | 0%nat =>
      let* (h', s') := call (c_kinds c) (c_default c) (income_body (hh_people w) 0) h (hh_income w) 0 in
      Ok ({| hh_rest := hh_rest w; hh_heap := h'; hh_people := hh_people w; hh_income := s'; hh_living := hh_living w; hh_saving := hh_saving w; hh_withdrawal := hh_withdrawal w |}, hget h' 0)
  | 1%nat =>
      let* (h', s') := call (c_kinds c) [] (living_body (c_living c (hh_rest w) (hh_people w) (s_year (hh_living w))) (hh_people w) 0) h (hh_living w) 0 in
      Ok ({| hh_rest := hh_rest w; hh_heap := h'; hh_people := hh_people w; hh_income := hh_income w; hh_living := s'; hh_saving := hh_saving w; hh_withdrawal := hh_withdrawal w |}, hget h' 0)
  | 2%nat =>
      let* (h', s') := call (c_kinds c) [] (saving_body (c_save c (hh_rest w)) 0) h (hh_saving w) 0 in
      Ok ({| hh_rest := hh_rest w; hh_heap := h'; hh_people := hh_people w; hh_income := hh_income w; hh_living := hh_living w; hh_saving := s'; hh_withdrawal := hh_withdrawal w |}, hget h' 0)
  | 3%nat =>
      let* (h', s') := withdraw_call (c_kinds c) [] (c_withdraw c (hh_rest w)) (c_wh c (hh_rest w)) h (hh_withdrawal w) 0 in
      Ok ({| hh_rest := hh_rest w; hh_heap := h'; hh_people := hh_people w; hh_income := hh_income w; hh_living := hh_living w; hh_saving := hh_saving w; hh_withdrawal := s' |}, hget h' 0)
  | _ => Ok (w, a)
  end.
(** next_year of sub-forecast [i] (base.py:202-204), or of a person or account *)
Definition real_next {X} (c : config X) (ev : event) (w : world X) : world X :=
  match ev with
  | NextSub 0%nat _ => {| hh_rest := hh_rest w; hh_heap := hh_heap w; hh_people := hh_people w; hh_income := SubModel.next_year (hh_income w); hh_living := hh_living w; hh_saving := hh_saving w; hh_withdrawal := hh_withdrawal w |}
  | NextSub 1%nat _ => {| hh_rest := hh_rest w; hh_heap := hh_heap w; hh_people := hh_people w; hh_income := hh_income w; hh_living := SubModel.next_year (hh_living w); hh_saving := hh_saving w; hh_withdrawal := hh_withdrawal w |}
  | NextSub 2%nat _ => {| hh_rest := hh_rest w; hh_heap := hh_heap w; hh_people := hh_people w; hh_income := hh_income w; hh_living := hh_living w; hh_saving := SubModel.next_year (hh_saving w); hh_withdrawal := hh_withdrawal w |}
  | NextSub 3%nat _ => {| hh_rest := hh_rest w; hh_heap := hh_heap w; hh_people := hh_people w; hh_income := hh_income w; hh_living := hh_living w; hh_saving := hh_saving w; hh_withdrawal := withdraw_next_year (hh_withdrawal w) |}
  | NextSub _ _ => w
  | _ => let '(x, h, p) := c_next c ev (hh_rest w, hh_heap w, hh_people w) in
         {| hh_rest := x; hh_heap := h; hh_people := p; hh_income := hh_income w; hh_living := hh_living w; hh_saving := hh_saving w; hh_withdrawal := hh_withdrawal w |}
  end.
Definition real_env {X} (c : config X) : env (world X) :=
  {| e_call := real_call c; e_next := real_next c;
     e_adj := fun w => let* a := tax_adjustment (c_wh c (hh_rest w) (hh_heap w)) (c_owing c (hh_rest w) (hh_heap w) (hh_people w)) (hh_people w) in Ok (Some a);
     e_refund := fun _ => c_refund c; e_pay := fun _ => c_pay c |}.
