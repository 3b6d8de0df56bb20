(** Model of /repo/forecaster/strategy/gross_transaction.py, strategy/allocation.py and the sharing of living expenses in
    forecast/living_expenses.py with the Python types of the numbers (KindModel.v, KindTaxModel.v) and the cached high-precision
    attributes of the strategies (utility/precision.py, PrecisionModel.v).  The definitions follow those of LivingModel.v and
    StrategyModel.v, which leave both out.  Simplified: all strategies are given the same high_precision, as a Forecaster does
    (forecaster.py:360-365), or all are given none. *)
From Verif Require Import Base InflationModel RBase KindModel KindTaxModel KindRegModel PersonModel.
From Verif Require LivingModel StrategyModel.
Open Scope Q_scope.

(** ** Computations that may raise and that change the caches (kept when they raise) *)
Definition prog (S A : Type) : Type := S -> res A * S.
Definition ret {S A} (r : res A) : prog S A := fun s => (r, s).
Definition pbind {S A B} (m : prog S A) (k : A -> prog S B) : prog S B :=
  fun s => match m s with (Ok a, s') => k a s' | (Err e, s') => (Err e, s') end.
Notation "'let!' x := m 'in' k" := (pbind m (fun x => k)) (at level 200, x pattern, m at level 100, k at level 200).

(** precision.py:114-149: reading a cached high-precision attribute; [c] the cache of the class, [own] what the object was given.
    The cache also holds the conversion function, here always the one in use. *)
Definition read (hp : bool) (c : option qn) (own : qn) : qn * option qn :=
  if hp then match c with Some v => (v, c) | None => (conv hp own, Some (conv hp own)) end else (own, c).

(** ** gross_transaction.py *)
(** as in LivingModel.v *)
Record klperson : Type := { kl_net : qn; kl_gross : qn; kl_net_hist : dict Z qn; kl_gross_hist : dict Z qn; kl_accounts : list nat }.
Record klcall : Type := { kc_people : option (list klperson); kc_year : option Z; kc_retire : option Z; kc_balance : nat -> dict Z qn }.
Record klparams : Type := { kl_kind : LivingModel.lkind; kl_base : qn; kl_rate : qn; kl_infl : option Z -> option (option Z) -> res qn }.
(** the caches of LivingExpensesStrategy.base_amount and .rate (gross_transaction.py:65-67) *)
Record lcache : Type := { lc_base : option qn; lc_rate : option qn }.
Definition no_cache : lcache := {| lc_base := None; lc_rate := None |}.
(** gross_transaction.py:69-83: the constructor sets both attributes, which empties the caches (precision.py:151-154) *)
Definition build_living (st : lcache) : lcache := no_cache.
Definition base_amount (hp : bool) (s : klparams) : prog lcache qn :=
  fun st => let (v, c) := read hp (lc_base st) (kl_base s) in (Ok v, {| lc_base := c; lc_rate := lc_rate st |}).
Definition rate (hp : bool) (s : klparams) : prog lcache qn :=
  fun st => let (v, c) := read hp (lc_rate st) (kl_rate s) in (Ok v, {| lc_base := lc_base st; lc_rate := c |}).
Definition khist_get (d : dict Z qn) (y : option Z) : res qn := match y with Some y => dget_r Z.eqb d y | None => Err KeyError end.
Definition kpeople_of (c : klcall) : res (list klperson) := match kc_people c with Some l => Ok l | None => Err TypeError end.
(** sum() *)
Definition total (l : list (res qn)) : res qn := ksumM (whole 0) l.
(** gross_transaction.py:93-151 *)
Definition run_kind (hp : bool) (s : klparams) (c : klcall) (accounts : option (list nat)) : prog lcache qn :=
  let infl1 := ret (kl_infl s (kc_year c) None) in
  let infl2 := ret (kl_infl s (kc_year c) (Some (kc_retire c))) in
  let of_history (l : list (res qn)) :=
    let! b := ret (total l) in let! r := rate hp s in let! x := ret (qmul r b) in let! i := infl2 in ret (qmul x i) in
  match kl_kind s with
  | LivingModel.ConstContribution =>
      let! ps := ret (kpeople_of c) in let! t := ret (total (map (fun p => Ok (kl_net p)) ps)) in
      let! b := base_amount hp s in let! i := infl1 in let! x := ret (qmul b i) in ret (qsub t x)
  | LivingModel.ConstExpenses => let! b := base_amount hp s in let! i := infl1 in ret (qmul b i)
  | LivingModel.NetPercent =>
      let! r := rate hp s in let! ps := ret (kpeople_of c) in let! t := ret (total (map (fun p => Ok (kl_net p)) ps)) in ret (qmul r t)
  | LivingModel.GrossPercent =>
      let! r := rate hp s in let! ps := ret (kpeople_of c) in let! t := ret (total (map (fun p => Ok (kl_gross p)) ps)) in ret (qmul r t)
  | LivingModel.PercentOverBase =>
      let! b := base_amount hp s in let! i := infl1 in let! x := ret (qmul b i) in
      let! ps := ret (kpeople_of c) in let! t := ret (total (map (fun p => Ok (kl_net p)) ps)) in
      let! d := ret (qsub t x) in let! r := rate hp s in let! y := ret (qmul d r) in ret (qadd x y)
  | LivingModel.PrincipalRet =>
      match accounts with
      | None => ret (Err TypeError)
      | Some l => of_history (map (fun a => khist_get (kc_balance c a) (kc_retire c)) l)
      end
  | LivingModel.NetPercentRet => let! ps := ret (kpeople_of c) in of_history (map (fun p => khist_get (kl_net_hist p) (kc_retire c)) ps)
  | LivingModel.GrossPercentRet => let! ps := ret (kpeople_of c) in of_history (map (fun p => khist_get (kl_gross_hist p) (kc_retire c)) ps)
  end.
(** gross_transaction.py:155-174 *)
Definition living_call (hp : bool) (s : klparams) (c : klcall) : prog lcache qn :=
  let! accounts := ret (match kc_people c with
                        | None => Ok None
                        | Some [] => Err TypeError
                        | Some l => Ok (Some (LivingModel.set_union (map kl_accounts l)))
                        end) in
  let! v := run_kind hp s c accounts in ret (Ok (kmax2 v (whole 0))).
(** gross_transaction.py:177-249 *)
Inductive klexp : Type := Plain (s : klparams) | Sched (working retirement : klexp) (minimum : option klexp).
Definition kretired (c : klcall) : bool := match kc_year c, kc_retire c with Some y, Some r => Z.ltb r y | _, _ => false end.
Fixpoint expenses (hp : bool) (e : klexp) (c : klcall) : prog lcache qn :=
  match e with
  | Plain s => living_call hp s c
  | Sched w r m =>
      let! v := if kretired c then expenses hp r c else expenses hp w c in
      match m with
      | None => ret (Ok v)
      | Some m => let! lo := expenses hp m c in ret (Ok (kmax2 v lo))
      end
  end.

(** forecast/living_expenses.py:51-58: the amounts taken for each person; [nets] their net incomes *)
Definition shares (expense : qn) (nets : list qn) : res (list qn) :=
  let* t := total (map (fun n => Ok n) nets) in
  let* ws := mapM (fun n => kqdiv n t) nets in
  mapM (fun w => qmul expense w) ws.

(** ** allocation.py *)
Record kalloc : Type := { k_stocks : qn; k_bonds : qn; k_other : qn }.
(** allocation.py:121-133; [ka_name]: which strategy *)
Inductive kaname : Type := NAge | Transition.
Record kaparams : Type := { ka_name : kaname; ka_target : qn; ka_min : qn; ka_max : qn; ka_std_age : Z; ka_period : Z; ka_adjust : bool }.
(** the caches of AllocationStrategy.min_equity, .max_equity and .target (allocation.py:115-118) *)
Record acache : Type := { ac_min : option qn; ac_max : option qn; ac_target : option qn }.
Definition no_acache : acache := {| ac_min := None; ac_max := None; ac_target := None |}.
Definition min_equity (hp : bool) (p : kaparams) : prog acache qn :=
  fun st => let (v, c) := read hp (ac_min st) (ka_min p) in (Ok v, {| ac_min := c; ac_max := ac_max st; ac_target := ac_target st |}).
Definition max_equity (hp : bool) (p : kaparams) : prog acache qn :=
  fun st => let (v, c) := read hp (ac_max st) (ka_max p) in (Ok v, {| ac_min := ac_min st; ac_max := c; ac_target := ac_target st |}).
Definition target (hp : bool) (p : kaparams) : prog acache qn :=
  fun st => let (v, c) := read hp (ac_target st) (ka_target p) in (Ok v, {| ac_min := ac_min st; ac_max := ac_max st; ac_target := c |}).
(** allocation.py:121-139: setting the attributes empties the caches; the check reads two of them *)
Definition build_allocation (hp : bool) (p : kaparams) : prog acache unit :=
  fun _ => (let! mx := max_equity hp p in let! mn := min_equity hp p in
            ret (if Qlt_bool (va mx) (va mn) then Err ValueError else Ok tt)) no_acache.
(** allocation.py:141-163 *)
Definition n_minus_age (hp : bool) (p : kaparams) (age : Z) (retirement_age : option Z) : prog acache kalloc :=
  let! age' := ret (if ka_adjust p
                    then match retirement_age with None => Err ValueError | Some r => Ok (age + (ka_std_age p - r))%Z end
                    else Ok age) in
  let! t := target hp p in
  let! d := ret (qsub t (whole (inject_Z age'))) in
  let! x := ret (kqdiv d (whole 100)) in
  let! b := ret (qsub (whole 1) x) in
  ret (Ok {| k_stocks := x; k_bonds := b; k_other := whole 0 |}).
(** allocation.py:165-195 *)
Definition transition_to_const (hp : bool) (p : kaparams) (age : Z) (retirement_age : option Z) : prog acache kalloc :=
  let! r := ret (if ka_adjust p then match retirement_age with None => Err ValueError | Some r => Ok r end else Ok (ka_std_age p)) in
  if Z.leb age (r - ka_period p) then
    let! x := max_equity hp p in let! y := max_equity hp p in let! b := ret (qsub (whole 1) y) in
    ret (Ok {| k_stocks := x; k_bonds := b; k_other := whole 0 |})
  else if Z.leb r age then
    let! mn := min_equity hp p in let! t := target hp p in
    let m := kmax2 mn t in let! b := ret (qsub (whole 1) m) in
    ret (Ok {| k_stocks := m; k_bonds := b; k_other := whole 0 |})
  else
    let! t := target hp p in let! mx := max_equity hp p in let! t' := target hp p in
    let! d := ret (qsub mx t') in let! y := ret (qmul d (whole (inject_Z (r - age)))) in
    let! z := ret (kqdiv y (whole (inject_Z (ka_period p)))) in
    let! x := ret (qadd t z) in let! b := ret (qsub (whole 1) x) in
    ret (Ok {| k_stocks := x; k_bonds := b; k_other := whole 0 |}).
(** [(d) * part / (bonds + other)] (allocation.py:238-245, 250-257) *)
Definition portion (d part bonds other : qn) : res qn := let* x := qmul d part in let* t := qadd bonds other in kqdiv x t.
(** allocation.py:220-260 *)
Definition balance (hp : bool) (p : kaparams) (a : kalloc) : prog acache kalloc :=
  let! mx := max_equity hp p in
  if Qlt_bool (va mx) (va (k_stocks a)) then
    let! d := ret (qsub (k_stocks a) mx) in
    let! b := ret (portion d (k_bonds a) (k_bonds a) (k_other a)) in let! b' := ret (qadd (k_bonds a) b) in
    let! d2 := ret (qsub (k_stocks a) mx) in
    let! o := ret (portion d2 (k_other a) (k_bonds a) (k_other a)) in let! o' := ret (qadd (k_other a) o) in
    ret (Ok {| k_stocks := mx; k_bonds := b'; k_other := o' |})
  else
    let! mn := min_equity hp p in
    if Qlt_bool (va (k_stocks a)) (va mn) then
      let! d := ret (qsub mn (k_stocks a)) in
      let! b := ret (portion d (k_bonds a) (k_bonds a) (k_other a)) in let! b' := ret (qsub (k_bonds a) b) in
      let! d2 := ret (qsub mx (k_stocks a)) in
      let! o := ret (portion d2 (k_other a) (k_bonds a) (k_other a)) in let! o' := ret (qsub (k_other a) o) in
      ret (Ok {| k_stocks := mn; k_bonds := b'; k_other := o' |})
    else ret (Ok a).
(** allocation.py:262-273 *)
Definition allocate (hp : bool) (p : kaparams) (age : Z) (retirement_age : option Z) : prog acache kalloc :=
  let! a := match ka_name p with NAge => n_minus_age hp p age retirement_age | Transition => transition_to_const hp p age retirement_age end in
  balance hp p a.
(** allocation.py:42-48, in the order of evaluation *)
Definition weighted_rate (a : kalloc) (rs rb ro : res qn) : res qn :=
  let* s := rs in let* x := qmul (k_stocks a) s in
  let* b := rb in let* y := qmul (k_bonds a) b in let* xy := qadd x y in
  let* o := ro in let* z := qmul (k_other a) o in let* n := qadd xy z in
  let* t := qadd (k_stocks a) (k_bonds a) in let* t' := qadd t (k_other a) in kqdiv n t'.
(** allocation.py:25-48; [rs], [rb], [ro]: the scenario's returns by year *)
Definition rate_function (hp : bool) (p : kaparams) (birth : date) (retirement_age : option Z) (rs rb ro : Z -> res qn) (year : Z) : prog acache qn :=
  let! age := ret (age_in_year birth year) in
  let! a := allocate hp p age retirement_age in
  ret (weighted_rate a (rs year) (rb year) (ro year)).
