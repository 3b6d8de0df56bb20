(** Model of /repo/forecaster/forecaster.py: Forecaster, which builds the parameters of a forecast
    from a settings object.

    Parameters that are built are objects on a heap, recording their type and the arguments they were
    built with.  Not modelled: what the constructors do with their arguments beyond accepting or
    rejecting them ([init_ok], arbitrary), and the forecast that is run from them (see HorizonModel). *)
From Coq Require Import Qround.
From Verif Require Import Base ReaderModel.

(** the classes Forecaster builds, forecaster.py:82-88 *)
Inductive ptype : Type := TScenario | TLiving | TTransaction | TAllocation | TTax.
(** Python values, as far as Forecaster looks at them.  [VUser n]: an object supplied by the user;
    [VObj n]: an object built by Forecaster; [VAttr v a]: the attribute [a] of object [v];
    [VFun]: the high_precision callable; [VType t]: a class *)
Inductive val : Type :=
  VNone | VStr (s : string) | VNum (n : num) | VUser (n : nat) | VObj (n : nat) | VAttr (v : val) (a : string)
| VSettings | VFun | VType (t : ptype).
Record obj : Type := { ob_type : ptype; ob_args : list val; ob_kw : list (string * val) }.
Notation kwargs := (list (string * val)).

(** forecaster.py:45-79; the dotted names are already split (forecaster.py:186) *)
Definition from_settings (l : list (string * string)) : list (string * list string) :=
  map (fun p => (fst p, ["settings"; snd p]))%string l.
Definition default_values (name : string) : option (list (string * list string)) :=
  (if String.eqb name "scenario" then
     Some (from_settings [("initial_year", "initial_year"); ("inflation", "inflation"); ("stock_return", "stock_return");
       ("bond_return", "bond_return"); ("other_return", "other_return"); ("management_fees", "management_fees");
       ("num_years", "num_years")])
   else if String.eqb name "living_expenses_strategy" then
     Some (from_settings [("strategy", "living_expenses_strategy"); ("base_amount", "living_expenses_base_amount");
       ("rate", "living_expenses_rate")] ++ [("inflation_adjust", ["scenario"; "inflation_adjust"])])%list
   else if String.eqb name "saving_strategy" then
     Some (from_settings [("strategy", "saving_strategy"); ("weights", "saving_weights")])
   else if String.eqb name "withdrawal_strategy" then
     Some (from_settings [("strategy", "withdrawal_strategy"); ("weights", "withdrawal_weights")])
   else if String.eqb name "allocation_strategy" then
     Some (from_settings [("strategy", "allocation_strategy"); ("target", "allocation_target");
       ("min_equity", "allocation_min_equity"); ("max_equity", "allocation_max_equity");
       ("standard_retirement_age", "allocation_std_retirement_age"); ("risk_transition_period", "allocation_risk_trans_period");
       ("adjust_for_retirement_plan", "allocation_adjust_retirement")])
   else if String.eqb name "tax_treatment" then
     Some (from_settings [("tax_brackets", "tax_brackets"); ("personal_deduction", "tax_personal_deduction");
       ("credit_rate", "tax_credit_rate")] ++ [("inflation_adjust", ["scenario"; "inflation_adjust"])] ++
       from_settings [("payment_timing", "tax_payment_timing")])%list
   else None)%string.
(** forecaster.py:82-88 *)
Definition default_types (name : string) : option ptype :=
  (if String.eqb name "scenario" then Some TScenario
   else if String.eqb name "living_expenses_strategy" then Some TLiving
   else if String.eqb name "saving_strategy" then Some TTransaction
   else if String.eqb name "withdrawal_strategy" then Some TTransaction
   else if String.eqb name "allocation_strategy" then Some TAllocation
   else if String.eqb name "tax_treatment" then Some TTax
   else None)%string.
(** forecaster.py:97-103, 361-363 *)
Definition high_precision_type (t : ptype) : bool := match t with TScenario => false | _ => true end.

(** the constructors' signatures: the parameters that may be passed by position, how many of them have
    no default, and those passed by keyword only.  scenario.py:34-37; strategy/gross_transaction.py:69-71;
    strategy/transaction/strategy.py:70-73; strategy/allocation.py:121-124; tax.py:114-117; the **kwargs
    of these end at strategy/base.py:84-88 and utility/precision.py:203, which accept high_precision only. *)
Record signature : Type := { sg_pos : list string; sg_required : nat; sg_kwonly : list string }.
Definition sig_of (t : ptype) : signature :=
  (match t with
   | TScenario => {| sg_pos := ["initial_year"; "num_years"; "inflation"; "stock_return"; "bond_return"; "other_return"; "management_fees"];
                     sg_required := 2; sg_kwonly := [] |}
   | TLiving => {| sg_pos := ["strategy"; "base_amount"; "rate"; "inflation_adjust"]; sg_required := 1; sg_kwonly := ["high_precision"] |}
   | TTransaction => {| sg_pos := ["strategy"; "weights"; "debt_strategy"; "high_interest_threshold"]; sg_required := 2;
                        sg_kwonly := ["high_precision"] |}
   | TAllocation => {| sg_pos := ["strategy"; "target"; "min_equity"; "max_equity"; "standard_retirement_age";
                         "risk_transition_period"; "adjust_for_retirement_plan"]; sg_required := 2; sg_kwonly := ["high_precision"] |}
   | TTax => {| sg_pos := ["tax_brackets"; "personal_deduction"; "credit_rate"; "inflation_adjust"; "refund_timing"; "payment_timing"];
                sg_required := 1; sg_kwonly := ["high_precision"] |}
   end)%string.
Definition smem (s : string) (l : list string) : bool := existsb (String.eqb s) l.
(** Python's rules for binding arguments: a violation is a TypeError *)
Definition call_ok (t : ptype) (args : list val) (kw : kwargs) : bool :=
  let s := sig_of t in
  let taken := firstn (Datatypes.length args) (sg_pos s) in
  (Datatypes.length args <=? Datatypes.length (sg_pos s))%nat
  && forallb (fun k => negb (smem k taken) && (smem k (sg_pos s) || smem k (sg_kwonly s))) (dkeys kw)
  && forallb (fun p => smem p taken || smem p (dkeys kw)) (firstn (sg_required s) (sg_pos s)).

(** the Forecaster instance (forecaster.py:144-165) and the objects built so far.  [f_attr]: None when
    there is no such attribute *)
Record fstate : Type := { f_attr : list (string * val); f_heap : list obj }.
Notation memo := (list (string * val)).
Definition alloc (st : fstate) (o : obj) : val * fstate :=
  (VObj (Datatypes.length (f_heap st)), {| f_attr := f_attr st; f_heap := f_heap st ++ [o] |}).
Definition set_attr (st : fstate) (name : string) (v : val) : fstate :=
  {| f_attr := dset String.eqb (f_attr st) name v; f_heap := f_heap st |}.
(** [getattr(self, name)] *)
Definition attr (st : fstate) (name : string) : res val :=
  match dget String.eqb (f_attr st) name with Some v => Ok v | None => Err AttributeError end.

Section Forecaster.
  (** the settings' attributes (see [attr_get] of ReaderModel); whether a constructor accepts its
      arguments; Python's float of a string; the high-precision functions (None: no high precision) *)
  Context (settings : string -> res val) (init_ok : ptype -> list val -> kwargs -> res unit)
    (float_of : string -> option fl) (hp : option ((string -> res fl) * (fl -> res fl))).

  (** forecaster.py:144-165: __init__ *)
  Definition new_forecaster (scenario living saving withdrawal tax : val) : fstate :=
    {| f_attr := [("settings", VSettings); ("scenario", scenario); ("living_expenses_strategy", living);
                  ("saving_strategy", saving); ("withdrawal_strategy", withdrawal); ("tax_treatment", tax);
                  ("allocation_strategy", VNone);
                  ("high_precision", match hp with Some _ => VFun | None => VNone end)]%string;
       f_heap := [] |}.
  (** [getattr(v, a)] on the way down a dotted name (forecaster.py:202); user-supplied and built objects
      are taken to have the attribute *)
  Definition member (v : val) (a : string) : res val :=
    match v with
    | VSettings => settings a
    | VUser _ | VObj _ | VAttr _ _ => Ok (VAttr v a)
    | _ => Err AttributeError
    end.
  Fixpoint members (v : val) (l : list string) : res val :=
    match l with [] => Ok v | a :: r => let* w := member v a in members w r end.
  (** calling the class, forecaster.py:366 *)
  Definition construct (t : ptype) (args : list val) (kw : kwargs) : res unit :=
    if call_ok t args kw then init_ok t args kw else Err TypeError.
  (** [d.update(kw)] *)
  Definition update (d kw : kwargs) : kwargs := fold_left (fun d e => dset String.eqb d (fst e) (snd e)) kw d.

  (** forecaster.py:290-368: build_param, with [pt] the param_type argument; and, inside,
      _get_attr_recursive (forecaster.py:167-202) for each default.  A call without memo is a call with
      an empty one.  default_builders is empty (forecaster.py:92-94).  Fuel bounds the nesting of parameters
      (Python's recursion limit). *)
  Fixpoint build (fuel : nat) (st : fstate) (m : memo) (name : string) (args : list val) (pt : option ptype) (kw : kwargs)
      : res (val * memo * fstate) :=
    match fuel with
    | O => Err RecursionError
    | S n =>
        match dget String.eqb m name with
        | Some v => Ok (v, m, st)
        | None =>
            let get (path : list string) (m : memo) (st : fstate) : res (val * memo * fstate) :=
              match path with
              | [] => Err AttributeError
              | top :: rest =>
                  let* a := attr st top in
                  let* (a, m, st) := match a, default_values top with
                                     | VNone, Some _ => build n st m top [] None []
                                     | _, _ => Ok (a, m, st)
                                     end in
                  let* v := members a rest in
                  Ok (v, m, st)
              end in
            let fix fill (tbl : list (string * list string)) (m : memo) (st : fstate) : res (kwargs * memo * fstate) :=
              match tbl with
              | [] => Ok ([], m, st)
              | (key, path) :: r =>
                  let* (v, m, st) := get path m st in
                  let* (kw, m, st) := fill r m st in
                  Ok ((key, v) :: kw, m, st)
              end in
            let* (kw, m, st) := match default_values name with
                                | Some tbl => let* (d, m, st) := fill tbl m st in Ok (update d kw, m, st)
                                | None => Ok (kw, m, st)
                                end in
            let* t := match pt with
                      | Some t => Ok t
                      | None => match default_types name with Some t => Ok t | None => Err KeyError end
                      end in
            let* kw := if high_precision_type t && negb (dmem String.eqb kw "high_precision"%string)
                       then let* h := attr st "high_precision"%string in Ok (dset String.eqb kw "high_precision"%string h)
                       else Ok kw in
            let* _ := construct t args kw in
            let (v, st) := alloc st {| ob_type := t; ob_args := args; ob_kw := kw |} in
            Ok (v, dset String.eqb m name v, st)
        end
    end.

  (** [int(x)] truncates; infinite and NaN arguments raise *)
  Definition py_int (x : fl) : res Z :=
    match x with
    | Fin q => Ok (if Qle_bool 0 q then Qfloor q else Qceiling q)
    | PInf | NInf => Err OverflowError
    | NaN => Err ValueError
    end.
  (** forecaster.py:405-438 *)
  Definition to_number (v : val) : res val :=
    match v with
    | VStr s =>
        match float_of s with
        | None => Ok (VStr s)
        | Some x =>
            let* z := py_int x in
            if fl_eqb x (Fin (inject_Z z)) then Ok (VNum (NInt z))
            else match hp with
                 | Some (h, hf) => match h s with
                                   | Ok y => Ok (VNum (NHigh y))
                                   | Err _ => let* y := hf x in Ok (VNum (NHigh y))
                                   end
                 | None => Ok (VNum (NFloat x))
                 end
        end
    | _ => Ok v
    end.
  (** forecaster.py:370-438 *)
  Definition get_param (fuel : nat) (st : fstate) (m : memo) (name : string) : res (val * memo * fstate) :=
    let* a := attr st name in
    let* (v, m, st) := match a with VNone => build fuel st m name [] None [] | _ => Ok (a, m, st) end in
    let* v := to_number v in
    Ok (v, m, st).
  (** forecaster.py:440-478 *)
  Definition set_param (fuel : nat) (st : fstate) (m : memo) (name : string) (args : list val) (pt : option ptype) (kw : kwargs)
      : res fstate :=
    let* (v, _, st) := build fuel st m name args pt kw in Ok (set_attr st name v).
  (** forecaster.py:480-495 *)
  Definition build_allocation_strategy (fuel : nat) (st : fstate) (args : list val) (kw : kwargs) : res (val * memo * fstate) :=
    build fuel st [] "allocation_strategy"%string (VType TAllocation :: args) None kw.

  (** the parameters run_forecast hands to the sub-forecasts, forecaster.py:234-247 *)
  Record params : Type := { p_scenario : val; p_year : val; p_living : val; p_saving : val; p_withdrawal : val; p_tax : val }.
  Definition run_params (fuel : nat) (st : fstate) : res (params * fstate) :=
    let* (sc, m, st) := get_param fuel st [] "scenario"%string in
    let* y := member sc "initial_year"%string in
    let* (li, m, st) := get_param fuel st m "living_expenses_strategy"%string in
    let* (sa, m, st) := get_param fuel st m "saving_strategy"%string in
    let* (wi, m, st) := get_param fuel st m "withdrawal_strategy"%string in
    let* (ta, m, st) := get_param fuel st m "tax_treatment"%string in
    Ok ({| p_scenario := sc; p_year := y; p_living := li; p_saving := sa; p_withdrawal := wi; p_tax := ta |}, st).
End Forecaster.
