(** Model of /repo/forecaster/canada/accounts/registered_account.py, rrsp.py and tfsa.py.
    Amounts are exact rationals; balances (which need real powers) only enter the rules through
    the argument [balance], so account growth is not repeated here (AccountModel.v). *)
From Verif Require Import Base InflationModel PersonModel.
From Coq Require Import Qround.

(** ** registered_account.py.  A registered account as its room bookkeeping sees it. *)
Record racct : Type := {
  ra_year : Z;                       (* this_year *)
  ra_txns : dict Q Q;                (* this year's transactions *)
  ra_hist : dict Z (option Q);       (* _contribution_room_history (inputs are copied in) *)
  ra_inputs : dict Z Q               (* inputs['contribution_room'] *)
}.
(** accounts/base.py inflows/outflows: sums of the positive/negative transactions *)
Definition r_inflows (a : racct) : Q := Qsum (filter (fun v => Qlt_bool 0 v) (map snd (ra_txns a))).
Definition r_outflows (a : racct) : Q := Qsum (filter (fun v => Qlt_bool v 0) (map snd (ra_txns a))).

(** a linked group: its accounts (in the iteration order of the link's group), the shared
    max_inflow_limit, and the contributor's current year *)
Record gstate : Type := { g_acct : nat -> racct; g_room : option Q; g_person : Z }.
Definition yr (s : gstate) (i : nat) : Z := ra_year (g_acct s i).
Definition set_acct (s : gstate) (i : nat) (a : racct) : gstate :=
  {| g_acct := upd_fn (g_acct s) i a; g_room := g_room s; g_person := g_person s |}.

(** registered_account.py:106-110: reading contribution_room (history first, then the limit) *)
Definition room_of (s : gstate) (i : nat) : option Q :=
  let a := g_acct s i in
  match dget Z.eqb (ra_hist a) (ra_year a) with Some v => v | None => g_room s end.
(** registered_account.py:112-116 with recorded_property.py:67-92: assigning contribution_room *)
Definition set_room (s : gstate) (i : nat) (v : option Q) : gstate :=
  let a := g_acct s i in
  if dmem Z.eqb (ra_inputs a) (ra_year a) then s else
  {| g_acct := upd_fn (g_acct s) i {| ra_year := ra_year a; ra_txns := ra_txns a;
       ra_hist := ddel Z.eqb (ra_hist a) (ra_year a); ra_inputs := ra_inputs a |};
     g_room := v; g_person := g_person s |}.
(** Account.next_year / Ledger.next_year as far as room is concerned: record this year's room,
    advance, forget the transactions *)
Definition advance (room : option Q) (a : racct) : racct :=
  {| ra_year := (ra_year a + 1)%Z; ra_txns := [];
     ra_hist := match dget Z.eqb (ra_hist a) (ra_year a) with
                | Some _ => ra_hist a
                | None => dset Z.eqb (ra_hist a) (ra_year a) room end;
     ra_inputs := ra_inputs a |}.

Section Group.
  Context (group : list nat).                      (* self.max_inflow_link.group *)
  Context (rule : nat -> gstate -> res Q).         (* next_contribution_room *)

  (** [while account.this_year < target: account.next_year()], [k] bounding the iterations *)
  Fixpoint catch_up (ny : gstate -> nat -> res gstate) (k : nat) (s : gstate) (j : nat) (target : Z) : res gstate :=
    match k with
    | O => Ok s
    | S k' => if Z.ltb (yr s j) target then let* s' := ny s j in catch_up ny k' s' j target else Ok s
    end.
  Definition catch_up_to ny s j target := catch_up ny (Z.to_nat (target - yr s j)) s j target.
  Fixpoint catch_all ny (l : list nat) (s : gstate) (target : Z) : res gstate :=
    match l with
    | [] => Ok s
    | j :: r => let* s' := catch_up_to ny s j target in catch_all ny r s' target
    end.
  (** registered_account.py:118-163 [next_year]; [n] bounds the nesting of calls *)
  Fixpoint reg_next_year (n : nat) (s : gstate) (i : nat) : res gstate :=
    match n with
    | O => Err NotImplementedError                 (* recursion bound exceeded *)
    | S m =>
      let y := yr s i in
      let first := forallb (fun j => Z.eqb (yr s j) y) group in
      let* room := (if first then
                      match dget Z.eqb (ra_hist (g_acct s i)) (y + 1)%Z with
                      | Some r => Ok r
                      | None => let* r := rule i s in Ok (Some r)
                      end
                    else Ok None) in
      let s1 := set_acct s i (advance (g_room s) (g_acct s i)) in
      let* s2 := catch_all (reg_next_year m) group s1 (y + 1)%Z in
      let s3 := {| g_acct := g_acct s2; g_room := g_room s2; g_person := Z.max (g_person s2) (y + 1) |} in
      Ok (if first then set_room s3 i room else s3)
    end.
  (** Forecast-style advancing: every account of [l] is advanced to [target] by a guarded loop *)
  Definition advance_list (n : nat) (l : list nat) (s : gstate) (target : Z) : res gstate :=
    catch_all (reg_next_year n) l s target.
End Group.

(** ** Constants and surroundings used by the subclasses *)
Record reg_consts : Type := {
  rc_rrsp_rate : Q;                      (* RRSP_ACCRUAL_RATE *)
  rc_rrsp_max : dict Z Q;                (* RRSP_ACCRUAL_MAX *)
  rc_rrsp_age : Z;                       (* RRSP_RRIF_CONVERSION_AGE *)
  rc_rrif_min : dict Z Q;                (* RRSP_RRIF_WITHDRAWAL_MIN *)
  rc_withhold : dict Z (dict Q Q);       (* RRSP_WITHHOLDING_TAX_RATE *)
  rc_tfsa : dict Z Q;                    (* TFSA_ANNUAL_ACCRUAL *)
  rc_tfsa_age : Z;                       (* TFSA_ELIGIBILITY_AGE *)
  rc_tfsa_round : Q                      (* TFSA_ACCRUAL_ROUNDING_FACTOR *)
}.
Definition iadj : Type := Z -> option Z -> res Q.  (* inflation_adjust(target, base) *)
Definition scalar_table (d : dict Z Q) : dict Z ival := map (fun kv => (fst kv, VScalar (snd kv))) d.
(** [extend_inflation_adjusted] on a table of numbers *)
Definition extend_scalar (d : dict Z Q) (ia : iadj) (y : Z) : res Q :=
  let* v := extend_inflation_adjusted (scalar_table d) ia y in
  match v with VScalar q => Ok q | _ => Err TypeError end.

(** ** rrsp.py *)
(** rrsp.py:64-70; [owner] is the owner's birth date *)
Definition rrif_max_year (K : reg_consts) (owner : date) (y0 : Z) : res Z :=
  let* a := age_in_year owner y0 in Ok (y0 + rc_rrsp_age K - a)%Z.
(** rrsp.py:72-82; [conv] is _rrif_conversion_year *)
Definition rrif_year (K : reg_consts) (owner : date) (y0 : Z) (conv : option Z) : res Z :=
  match conv with Some y => Ok y | None => rrif_max_year K owner y0 end.
(** rrsp.py:84-114 the setter (integer argument): resulting _rrif_conversion_year, exception *)
Definition set_rrif_year (K : reg_consts) (owner : date) (y0 : Z) (conv : option Z) (v : option Z)
    : option Z * option err :=
  match v with
  | None => (None, None)
  | Some y => match rrif_max_year K owner y0 with
              | Err e => (conv, Some e)
              | Ok m => if Z.ltb m y then (conv, Some ValueError) else (Some y, None)
              end
  end.
(** rrsp.py:176-221 *)
Definition rrsp_next_room (K : reg_consts) (ia : iadj) (contributor : date) (income : Z -> res Q)
    (room : option Q) (inflows : Q) (year : Z) : res Q :=
  let* a := age_in_year contributor (year + 1)%Z in
  if Z.ltb (rc_rrsp_age K) a then Ok 0
  else let* inc := income year in
       let* mx := extend_scalar (rc_rrsp_max K) ia (year + 1)%Z in
       match room with
       | None => Err TypeError
       | Some r => Ok (qmin (inc * rc_rrsp_rate K) mx + (r - inflows))
       end.
Definition rrsp_rule (K : reg_consts) (ia : iadj) (contributor : date) (income : Z -> res Q)
    (i : nat) (s : gstate) : res Q :=
  rrsp_next_room K ia contributor income (room_of s i) (r_inflows (g_acct s i)) (yr s i).
(** rrsp.py:231-255 *)
Definition minimum_distribution (K : reg_consts) (contributor : date) (conv_year year : Z) (balance : Q) : res Q :=
  if Z.ltb conv_year year then
    let* age := age_in_year contributor year in
    match dget Z.eqb (rc_rrif_min K) age with
    | Some r => Ok (r * balance)
    | None => match zmaxl (dkeys (rc_rrif_min K)) with
              | None => Err ValueError
              | Some m => if Z.ltb m age
                          then match map snd (rc_rrif_min K) with
                               | [] => Err ValueError
                               | x :: l => Ok (balance * fold_left qmax l x) end
                          else qdiv balance (inject_Z (90 - age))
              end
    end
  else Ok 0.
(** rrsp.py:223-229; [shared] is the LinkedLimitAccount's min_outflow_limit *)
Definition rrsp_min_outflow (K : reg_consts) (contributor : date) (conv_year year : Z) (balance shared : Q) : res Q :=
  let* m := minimum_distribution K contributor conv_year year balance in Ok (qmin (- m) shared).
(** max(..., default=min(keys)) over a bracket table: rrsp.py:160-164 *)
Definition qmax_opt (l : list Q) : option Q :=
  match l with [] => None | x :: r => Some (fold_left qmax r x) end.
Definition qmin_opt (l : list Q) : option Q :=
  match l with [] => None | x :: r => Some (fold_left qmin r x) end.
Definition bracket_of (rates : dict Q Q) (income : Q) : res Q :=
  match qmax_opt (filter (fun b => Qlt_bool b income) (dkeys rates)) with
  | Some b => Ok b
  | None => match qmin_opt (dkeys rates) with Some b => Ok b | None => Err ValueError end
  end.
(** rrsp.py:134-166; [taxable] is taxable_income, [min_out] min_outflow_limit *)
Definition rrsp_tax_withheld (K : reg_consts) (ia : iadj) (conv_year year : Z) (taxable min_out : Q) : res Q :=
  let t := if Z.ltb year conv_year then taxable else taxable - min_out in
  match nearest_year (rc_withhold K) year with
  | None => Err KeyError
  | Some ty =>
    let* rates := dget_r Z.eqb (rc_withhold K) ty in
    let* f := ia ty (Some year) in
    let* b := bracket_of rates (t * f) in
    let* r := dget_r Qeq_bool rates b in
    Ok (t * r)
  end.
(** rrsp.py:121-132, 168-174 *)
Definition rrsp_taxable_income (a : racct) : Q := - r_outflows a.
Definition rrsp_tax_deduction (a : racct) : Q := r_inflows a.

(** ** tfsa.py *)
(** Python's [round] (half to even) *)
Definition qround (q : Q) : Z :=
  let f := Qfloor q in
  let d := q - inject_Z f in
  if Qlt_bool d (1 # 2) then f else if Qlt_bool (1 # 2) d then (f + 1)%Z
  else if Z.even f then f else (f + 1)%Z.
(** [round(q / factor) * factor] *)
Definition round_to (factor q : Q) : res Q := let* d := qdiv q factor in Ok (inject_Z (qround d) * factor).
(** tfsa.py:43-49 *)
Definition tfsa_base (K : reg_consts) (ia : iadj) : res (Z * Q) :=
  match zminl (dkeys (rc_tfsa K)) with
  | None => Err ValueError
  | Some y => let* v := extend_scalar (rc_tfsa K) ia y in let* b := round_to (rc_tfsa_round K) v in Ok (y, b)
  end.
(** tfsa.py:100-121 *)
Definition tfsa_accrual (K : reg_consts) (ia : iadj) (owner : date) (year : Z) : res Q :=
  let* a := age_in_year owner (year + 1)%Z in
  if Z.ltb a (rc_tfsa_age K) then Ok 0
  else match dget Z.eqb (rc_tfsa K) year with
       | Some v => Ok v
       | None => let* (by_, b) := tfsa_base K ia in
                 let* f := ia by_ (Some year) in      (* arguments in the order of tfsa.py:117-118 *)
                 round_to (rc_tfsa_round K) (b * f)
       end.
(** sum over range(lo, hi) *)
Definition zrange (lo hi : Z) : list Z := map (fun k => (lo + Z.of_nat k)%Z) (seq 0 (Z.to_nat (hi - lo))).
Definition sumM (l : list (res Q)) : res Q := let* xs := mapM (fun x => x) l in Ok (Qsum xs).
(** tfsa.py:57-98; [hist] is _contribution_room_history after construction (inputs only) *)
Definition tfsa_infer (K : reg_consts) (ia : iadj) (owner contributor : date) (hist : dict Z Q) (y0 : Z) : res Q :=
  match dget Z.eqb hist y0 with
  | Some v => Ok v
  | None =>
    let* (start, base) :=
      match hist with
      | _ :: _ => match zmaxl (filter (fun y => Z.ltb y y0) (dkeys hist)) with
                  | None => Err ValueError
                  | Some last => let* v := dget_r Z.eqb hist last in Ok ((last + 1)%Z, v)
                  end
      | [] => let* a := age_in_year contributor y0 in
              match zminl (dkeys (rc_tfsa K)) with
              | None => Err ValueError
              | Some m => Ok (Z.max (y0 - a + rc_tfsa_age K) m, 0)
              end
      end in
    let* t := sumM (map (tfsa_accrual K ia owner) (zrange start (y0 + 1)%Z)) in Ok (base + t)
  end.
(** tfsa.py:123-129 *)
Definition tfsa_next_room (K : reg_consts) (ia : iadj) (owner : date) (room : option Q) (inflows outflows : Q) (year : Z) : res Q :=
  let* acc := tfsa_accrual K ia owner (year + 1)%Z in
  match room with
  | None => Err TypeError
  | Some r => Ok (acc + (r - (outflows + inflows)))
  end.
Definition tfsa_rule (K : reg_consts) (ia : iadj) (owner : nat -> date) (i : nat) (s : gstate) : res Q :=
  tfsa_next_room K ia (owner i) (room_of s i) (r_inflows (g_acct s i)) (r_outflows (g_acct s i)) (yr s i).
(** construction of the first account of a group (registered_account.py:85-87, rrsp.py:60-62,
    tfsa.py:51-53): the given room becomes the shared limit; if contribution_room then reads as
    None (no argument, no input for the first year) the class's default is assigned *)
Definition reg_init (y0 : Z) (inputs : dict Z Q) (room : option Q) (default : res Q) : res gstate :=
  let s := {| g_acct := fun _ => {| ra_year := y0; ra_txns := [];
                ra_hist := map (fun kv => (fst kv, Some (snd kv))) inputs; ra_inputs := inputs |};
              g_room := room; g_person := y0 |} in
  match room_of s 0 with
  | Some _ => Ok s
  | None => let* d := default in Ok (set_room s 0 (Some d))
  end.
(** accounts/base.py:708-715 with the registered limit: the most that can still be contributed
    this year (None - x is a TypeError) *)
Definition reg_max_inflow (s : gstate) (i : nat) : res Q :=
  match g_room s with
  | None => Err TypeError
  | Some r => Ok (qmax (r - r_inflows (g_acct s i)) 0)
  end.
