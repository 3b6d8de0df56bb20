(** Model of a Forecast whose taxes are those of a TaxCanada: forecast/tax.py:57-60 with canada/tax.py:187-250 and
    canada/forecaster.py:10-17. *)
From Verif Require Import Base SubModel ForecastsModel HorizonModel RegModel TaxModel TaxCanadaModel TaxMultiModel.

(** What the TaxForecast knows (forecast/tax.py:36-43): its year, the set of people in its order of iteration, what each
    person's record shows given their accounts' transactions (the heap) and the rest of the household, who is married to
    whom, the unknown order of other sets, and its tax treatment's federal and provincial jurisdictions with whatever
    they remember of earlier calls. *)
Record treatment (X : Type) : Type := {
  ct_year : X -> Z; ct_people : list nat;
  ct_who : X -> heap -> list person -> nat -> cperson; ct_spouse : X -> nat -> option nat;
  ct_order : list nat -> list nat; ct_jurs : X -> list jur }.
Arguments ct_year {X}. Arguments ct_people {X}. Arguments ct_who {X}. Arguments ct_spouse {X}. Arguments ct_order {X}. Arguments ct_jurs {X}.
(** forecast/tax.py:57-60 [self.tax_treatment(self.people, self.this_year)]: TaxCanada.__call__ without further
    arguments (canada/tax.py:187-250) is TaxMulti's.  Simplified: what this call itself adds to the jurisdictions'
    memory is not written back ([ct_jurs] may show any memory at all). *)
Definition canada_owing {X} (k : treatment X) (x : X) (h : heap) (people : list person) : res Q :=
  let* (t, _) := mcall (ct_who k x h people) (ct_spouse k x) (ct_order k) (ct_jurs k x) (Group (ct_people k)) (ct_year k x) [] [] in Ok t.
(** canada/forecaster.py:10-33: a forecast with this tax treatment *)
Definition with_treatment {X} (c : config X) (k : treatment X) : config X := {|
  c_kinds := c_kinds c; c_default := c_default c; c_living := c_living c;
  c_save := c_save c; c_withdraw := c_withdraw c;
  c_wh := c_wh c; c_owing := canada_owing k; c_refund := c_refund c; c_pay := c_pay c; c_next := c_next c |}.
