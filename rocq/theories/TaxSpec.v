(** Specification vocabulary for income tax (C38-C44). *)
From Verif Require Import Base InflationModel TaxModel.

(** thresholds above [b] *)
Definition above (d : table) (b : Q) : list Q := filter (fun k => Qlt_bool b k) (dkeys d).
(** how much of income [x] falls in the bracket that starts at [b]: from [b] up to [x] or to the
    next threshold, whichever comes first *)
Definition in_bracket (d : table) (b x : Q) : Q := qmax 0 (fold_right qmin x (above d b) - b).
(** the progressive tax on [x]: each slice at its own rate *)
Definition progressive (d : table) (x : Q) : Q := Qsum (map (fun kv => snd kv * in_bracket d (fst kv) x) d).

(** a bracket table: thresholds are distinct, at least one *)
Definition table_ok (d : table) : Prop := d <> [] /\ dwf Qeq_bool d.
Definition lowest (d : table) (m : Q) : Prop := In m (dkeys d) /\ forall k, In k (dkeys d) -> m <= k.
Definition rates_nonneg (d : table) : Prop := forall k r, In (k, r) d -> 0 <= r.
Definition rates_at_most (d : table) (r : Q) : Prop := forall k r', In (k, r') d -> r' <= r.

(** the same table with thresholds multiplied by [f] and the same rates *)
Definition inflated (f : Q) (d : table) : table := map (fun kv => (f * fst kv, snd kv)) d.
(** equal as tables: same thresholds and rates (as numbers), in the same order *)
Definition same_table (a b : table) : Prop := Forall2 (fun x y => fst x == fst y /\ snd x == snd y) a b.

(** a Tax object whose caches agree with each other *)
Definition well_built (s : tax) : Prop := x_brk s <> [] /\
  (forall y d, dget Z.eqb (x_brk s) y = Some d -> table_ok d /\ exists a, dget Z.eqb (x_acc s) y = Some a /\ add_accum d = Ok a) /\
  (forall y, dget Z.eqb (x_brk s) y = None -> dget Z.eqb (x_acc s) y = None) /\ dwf Z.eqb (x_brk s) /\ dwf Z.eqb (x_acc s).
(** inflation is total, positive and consistent *)
Definition consistent_inflation (ia : Z -> option Z -> res Q) : Prop := exists f : Z -> Z -> Q,
  (forall t b, ia t (Some b) = Ok (f t b)) /\ (forall t b, 0 < f t b) /\ (forall b, f b b == 1) /\
  (forall t m b, f t m * f m b == f t b).

(** a credit rate is known *)
Definition has_credit_rate (s : tax) (year : Z) (c : Q) : Prop := credit_rate s year = Ok c.
(** gross tax before credits: progressive above the lowest threshold [m]; below it the code
    extrapolates the lowest bracket's line (a nonpositive amount for a nonnegative rate) *)
Definition gross_tax (d : table) (x g : Q) : Prop := exists m r, lowest d m /\ In (m, r) d /\
  (m < x -> g == progressive d x) /\ (x <= m -> g == (x - m) * r).

(** ** Queries (C41) *)
Inductive query : Type := QBrackets | QMarginalBracket (x : Q) | QMarginalRate (x : Q) | QTax (x d c : Q) | QAccum.
Inductive answer : Type := ATable (t : table) | ANum (q : Q).
Definition ask (s : tax) (q : query * Z) : res (answer * tax) :=
  match q with
  | (QBrackets, y) => let* (t, s') := tax_brackets s y in Ok (ATable t, s')
  | (QMarginalBracket x, y) => let* (b, s') := marginal_bracket s x y in Ok (ANum b, s')
  | (QMarginalRate x, y) => let* (b, s') := marginal_rate s x y in Ok (ANum b, s')
  | (QTax x d c, y) => let* (b, s') := tax_money s x y d c in Ok (ANum b, s')
  | (QAccum, y) => let* (t, s') := accum s y in Ok (ATable t, s')
  end.
Fixpoint ask_all (s : tax) (qs : list (query * Z)) : res tax :=
  match qs with [] => Ok s | q :: r => let* (_, s') := ask s q in ask_all s' r end.
Definition same_answer (a b : answer) : Prop :=
  match a, b with ATable t, ATable u => same_table t u | ANum p, ANum q => p == q | _, _ => False end.
