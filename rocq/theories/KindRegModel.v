(** Model of /repo/forecaster/scenario.py, person.py's income and canada/accounts/rrsp.py and tfsa.py with the Python types of the numbers
    (KindModel.v, KindTaxModel.v).  The definitions follow those of ScenarioModel.v, PersonModel.v and RegModel.v, which leave the types out. *)
From Verif Require Import Base InflationModel RBase KindModel KindTaxModel PersonModel.
From Verif Require RegModel ScenarioModel.
Open Scope Q_scope.

(** ** scenario.py *)
(** scenario.py:187-188, 191-192; [rate]: [discount_rate] (scenario.py:172-177) *)
Fixpoint grow_loop (rate : Z -> res qn) (acc : qn) (ys : list Z) : res qn :=
  match ys with
  | [] => Ok acc
  | y :: r => let* i := rate y in let* f := qadd (whole 1) i in let* a := qmul acc f in grow_loop rate a r
  end.
(** scenario.py:179-193 [accumulation_function] *)
Definition accumulation (rate : Z -> res qn) (year1 year2 : Z) : res qn :=
  if Z.leb year1 year2 then grow_loop rate (whole 1) (ScenarioModel.zrange2 year1 year2)
  else let* a := grow_loop rate (whole 1) (ScenarioModel.zrange2 year2 year1) in kqdiv (whole 1) a.
(** scenario.py:246-288 [InflationAdjust.__call__] *)
Definition inflation_adjust (rate : Z -> res qn) (initial_year : Z) (target : Z) (base : option Z) : res qn :=
  accumulation rate (match base with Some b => b | None => initial_year end) target.

(** ** person.py *)
(** person.py:251-275 [raise_rate_callable]: a number is converted, a table or a function is used as it is *)
Inductive kraise : Type := RScalar (r : qn) | RTable (d : dict Z qn) | RCallable (f : Z -> res qn).
Definition raise_callable (hp : bool) (a : kraise) : Z -> res qn :=
  match a with RScalar r => fun _ => Ok (conv hp r) | RTable d => fun y => dget_r Z.eqb d y | RCallable f => f end.
(** person.py:325-340 [gross_income] in the [n]-th year after the first, [first] being the income of the first year (person.py:112-152) and
    [retire] the year of retirement; [inputs]: the incomes given as inputs.  Simplified: an error in a year ends it (the year could not
    have been recorded). *)
Fixpoint gross_income (hp : bool) (inputs : Z -> option qn) (first : qn) (raise : Z -> res qn) (retire : option Z) (y0 : Z) (n : nat) : res qn :=
  let y := (y0 + Z.of_nat n)%Z in
  match n with
  | O => Ok (match inputs y with Some v => v | None => first end)
  | S m =>
      let* before := gross_income hp inputs first raise retire y0 m in
      match inputs y with
      | Some v => Ok v
      | None =>
        if match retire with Some r => Z.ltb r y | None => false end then Ok (conv hp (whole 0))
        else let* r := raise y in let* f := qadd (whole 1) r in qmul before f
      end
  end.

(** ** constants and surroundings of registered accounts, as in RegModel.v *)
Record kconsts : Type := {
  kc_rrsp_rate : qn; kc_rrsp_max : dict Z qn; kc_rrsp_age : Z; kc_rrif_min : dict Z qn; kc_withhold : dict Z ktable;
  kc_tfsa : dict Z qn; kc_tfsa_age : Z; kc_tfsa_round : qn }.
Definition kiadj : Type := Z -> option Z -> res qn.
(** utility/inflation.py:46-110 [extend_inflation_adjusted] on a table of numbers *)
Definition extend_scalar (d : dict Z qn) (ia : kiadj) (y : Z) : res qn :=
  match dget Z.eqb d y with
  | Some v => Ok v
  | None =>
    match nearest_year d y with
    | None => Err KeyError
    | Some base =>
      if Z.eqb base y then Err ValueError else
      let* v := dget_r Z.eqb d base in let* a := ia y (Some base) in qmul v a
    end
  end.
(** {year: high_precision(val)} or, without it, the values (rrsp.py:46-51, 207-209, 234-240) *)
Definition conv_all (hp : bool) (d : dict Z qn) : dict Z qn := map (fun kv => (fst kv, conv hp (snd kv))) d.
(** ** rrsp.py *)
(** rrsp.py:54-58: part of the constructor *)
Definition rrsp_initial_accrual (hp : bool) (K : kconsts) (ia : kiadj) (y0 : Z) : res qn := extend_scalar (conv_all hp (kc_rrsp_max K)) ia y0.
(** rrsp.py:176-221; [inflows] the amount of this year's inflows *)
Definition rrsp_next_room (hp : bool) (K : kconsts) (ia : kiadj) (contributor : date) (income : Z -> res qn)
    (room : option qn) (inflows : qn) (year : Z) : res qn :=
  let* a := age_in_year contributor (year + 1)%Z in
  if Z.ltb (kc_rrsp_age K) a then Ok (conv hp (whole 0))
  else let* inc := income year in
       let* acc := qmul inc (conv hp (kc_rrsp_rate K)) in
       let* mx := extend_scalar (conv_all hp (kc_rrsp_max K)) ia (year + 1)%Z in
       match room with
       | None => Err TypeError
       | Some r => let* rollover := qsub r inflows in qadd (kmin2 acc mx) rollover
       end.
(** rrsp.py:231-255; max(values) is of the converted values *)
Definition minimum_distribution (hp : bool) (K : kconsts) (contributor : date) (conv_year year : Z) (balance : qn) : res qn :=
  if Z.ltb conv_year year then
    let* age := age_in_year contributor year in
    let mins := conv_all hp (kc_rrif_min K) in
    match dget Z.eqb mins age with
    | Some r => qmul (conv hp r) balance
    | None => match zmaxl (dkeys mins) with
              | None => Err ValueError
              | Some m => if Z.ltb m age
                          then match kmax_opt (map snd mins) with None => Err ValueError | Some x => qmul balance x end
                          else kqdiv balance (whole (inject_Z (90 - age)))
              end
    end
  else Ok (conv hp (whole 0)).
(** rrsp.py:223-229; -a *)
Definition kneg (a : qn) : qn := Num (kd a) (- va a).
Definition rrsp_min_outflow (hp : bool) (K : kconsts) (contributor : date) (conv_year year : Z) (balance shared : qn) : res qn :=
  let* m := minimum_distribution hp K contributor conv_year year balance in Ok (kmin2 (kneg m) shared).
(** rrsp.py:134-166 *)
Definition rrsp_tax_withheld (hp : bool) (K : kconsts) (ia : kiadj) (conv_year year : Z) (taxable : qn) (min_out : res qn) : res qn :=
  let* t := if Z.ltb year conv_year then Ok taxable else let* m := min_out in qsub taxable m in
  match nearest_year (kc_withhold K) year with
  | None => Err KeyError
  | Some ty =>
    let* rates := dget_r Z.eqb (kc_withhold K) ty in
    let* f := ia ty (Some year) in
    let* x := qmul t f in
    let* b := bracket_of rates x in
    let* r := dget_r keq rates b in
    qmul t (conv hp r)
  end.

(** ** tfsa.py *)
(** Python's round(x): an int, whatever the type of x *)
Definition kround (a : qn) : qn := whole (inject_Z (RegModel.qround (va a))).
Definition round_to (factor a : qn) : res qn := let* d := kqdiv a factor in qmul (kround d) factor.
(** tfsa.py:43-49: part of the constructor *)
Definition tfsa_base (K : kconsts) (ia : kiadj) : res (Z * qn) :=
  match zminl (dkeys (kc_tfsa K)) with
  | None => Err ValueError
  | Some y => let* v := extend_scalar (kc_tfsa K) ia y in let* b := round_to (kc_tfsa_round K) v in Ok (y, b)
  end.
(** tfsa.py:100-121 *)
Definition tfsa_accrual (hp : bool) (K : kconsts) (ia : kiadj) (owner : date) (year : Z) : res qn :=
  let* a := age_in_year owner (year + 1)%Z in
  if Z.ltb a (kc_tfsa_age K) then Ok (conv hp (whole 0))
  else match dget Z.eqb (kc_tfsa K) year with
       | Some v => Ok v
       | None => let* (by_, b) := tfsa_base K ia in
                 let* f := ia by_ (Some year) in
                 let* x := qmul b f in
                 round_to (kc_tfsa_round K) x
       end.
(** sum() of a generator: from the int 0 *)
Fixpoint ksumM (s : qn) (l : list (res qn)) : res qn :=
  match l with [] => Ok s | x :: r => let* v := x in let* s' := qadd s v in ksumM s' r end.
(** tfsa.py:57-98; [hist]: the inputs *)
Definition tfsa_infer (hp : bool) (K : kconsts) (ia : kiadj) (owner contributor : date) (hist : dict Z qn) (y0 : Z) : res qn :=
  match dget Z.eqb hist y0 with
  | Some v => Ok v
  | None =>
    let* (start, base) :=
      match hist with
      | _ :: _ => match zmaxl (filter (fun y => Z.ltb y y0) (dkeys hist)) with
                  | None => Err ValueError
                  | Some last => let* v := dget_r Z.eqb hist last in Ok ((last + 1)%Z, v)
                  end
      | [] => let* a := age_in_year contributor y0 in
              match zminl (dkeys (kc_tfsa K)) with
              | None => Err ValueError
              | Some m => Ok (Z.max (y0 - a + kc_tfsa_age K) m, conv hp (whole 0))
              end
      end in
    let* t := ksumM (whole 0) (map (tfsa_accrual hp K ia owner) (RegModel.zrange start (y0 + 1)%Z)) in qadd base t
  end.
(** tfsa.py:123-129 *)
Definition tfsa_next_room (hp : bool) (K : kconsts) (ia : kiadj) (owner : date) (room : option qn) (inflows outflows : qn) (year : Z) : res qn :=
  let* acc := tfsa_accrual hp K ia owner (year + 1)%Z in
  match room with
  | None => Err TypeError
  | Some r => let* flows := qadd outflows inflows in let* rollover := qsub r flows in qadd acc rollover
  end.
