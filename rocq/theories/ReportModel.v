(** Model of the figures a Forecast reports and of when they are recorded
    (/repo/forecaster/forecast/base.py:163-169, 191-218, 279-312, with ledger/base.py:94-111). *)
From Verif Require Import Base TimingModel SubModel ForecastsModel HorizonModel.
From Verif Require LedgerModel.
Import LedgerModel(Ret, Get, EnvRd, Raise, prog, lclass, lstate, with_env, getp, history_at).

(** what the sub-forecasts and accounts answer when asked, by the state they are in:
    income_forecast.net_income, living_expenses_forecast.living_expenses, the sum of the assets'
    balances, withdrawal_forecast.gross_withdrawals and tax_forecast.tax_owing *)
Record figures (W : Type) : Type := {
  g_income : W -> res Q; g_living : W -> res Q; g_principal : W -> res Q; g_withdrawals : W -> res Q; g_tax : W -> res Q }.
Arguments g_income {W}. Arguments g_living {W}. Arguments g_principal {W}. Arguments g_withdrawals {W}. Arguments g_tax {W}.

(** the recorded properties of Forecast (base.py:279-312) *)
Definition INCOME : nat := 0. Definition LIVING : nat := 1. Definition SAVINGS : nat := 2.
Definition PRINCIPAL : nat := 3. Definition WITHDRAWALS : nat := 4. Definition TAX : nat := 5.

Definition ask {W} (f : W -> res Q) : prog Q (fstate W) :=
  EnvRd (fun s => match f (f_world s) with Ok v => Ret v | Err _ => Raise end).
(** base.py:279-312: the getters *)
Definition report_get {W} (g : figures W) (p : nat) : prog Q (fstate W) :=
  match p with
  | 0%nat => ask (g_income g)
  | 1%nat => ask (g_living g)
  | 2%nat => Get INCOME (fun i => Get LIVING (fun l => Ret (reported_savings i l)))
  | 3%nat => ask (g_principal g)
  | 4%nat => ask (g_withdrawals g)
  | 5%nat => ask (g_tax g)
  | _ => Raise
  end.
(** [order]: the order in which the set of recorded properties is iterated (ledger/base.py:100-109);
    the first four are recorded_property_cached.  Forecast passes no inputs (base.py:138-139). *)
Definition report_class {W} (g : figures W) (order : list nat) : lclass Q (fstate W) := {|
  LedgerModel.props := order;
  LedgerModel.cached := fun p => (p <? 4)%nat;
  LedgerModel.fget := report_get g;
  LedgerModel.fset := fun _ => None; LedgerModel.fdel := fun _ => None;
  LedgerModel.inputs := fun _ _ => None |}.

(** a Forecast: the state of its parts, and its own ledger (whose surroundings are that state) *)
Definition forecast (W : Type) : Type := (fstate W * lstate Q (fstate W))%type.
Definition depth : nat := 3.   (* property reads nest at most this deep *)
(** base.py:191-218: the forecast's own properties are recorded (198-199) before any part advances.
    (Simplified: the tax adjustment is read first, line 196; if that read and the recording both fail
    the exception is the former's.) *)
Definition report_next {W} (e : env W) (g : figures W) (order : list nat) (x : forecast W) : res (forecast W) :=
  match LedgerModel.next_year (report_class g order) depth (snd x) with
  | None => Err ValueError
  | Some l => let* s := next_year e (fst x) in Ok (s, with_env l s)
  end.
(** base.py:186-189 *)
Definition report_calls {W} (e : env W) (x : forecast W) : res (forecast W) :=
  let* s := call_subforecasts e (fst x) in Ok (s, with_env (snd x) s).
(** base.py:165-169, after [n] turns of the loop *)
Fixpoint report_years {W} (e : env W) (g : figures W) (order : list nat) (n : nat) (x : forecast W) : res (forecast W) :=
  match n with
  | O => Ok x
  | S m => let* x1 := report_calls e x in let* x2 := report_next e g order x1 in report_years e g order m x2
  end.
(** base.py:113-169: a Forecast over the years from that of [s] to [last] *)
Definition report_forecast {W} (e : env W) (g : figures W) (order : list nat) (last : Z) (s : fstate W) : res (forecast W) :=
  let* x := report_years e g order (turns (f_year s) last) (s, LedgerModel.init (report_class g order) (f_year s) s) in
  report_calls e x.

(** ** The figures of the modelled household *)
(** income.py:96-101, living_expenses.py:60-81 (cached; people do not change within a year),
    withdrawal.py:132-137, tax.py:57-60; [balances] is base.py:297-302, the sum of the assets'
    balances, whose model is AccountModel *)
Definition real_figures {X} (c : config X) (balances : world X -> res Q) : figures (world X) := {|
  g_income := fun w => Ok (net_income (hh_people w));
  g_living := fun w => c_living c (hh_rest w) (hh_people w) (s_year (hh_living w));
  g_principal := balances;
  g_withdrawals := fun w => Ok (gross_withdrawals (hh_withdrawal w));
  g_tax := fun w => c_owing c (hh_rest w) (hh_heap w) (hh_people w) |}.
