(** The shipped Canadian constants and default settings (C102-C104). *)
From Verif Require Import Base InflationModel PersonModel RegModel TaxModel TaxCanadaModel StrategyModel TxStratModel.

(** canada/constants.py:147-166 TAX_BRACKETS (the same values are in data/canada.constants.json);
    the literals are read as exact decimals *)
Definition TAX_BRACKETS : dict string (dict Z table) :=
  [("Federal"%string, [(2017%Z, [(0, 15 # 100); (4596123 # 100, 205 # 1000); (9192145 # 100, 26 # 100); (14249382 # 100, 29 # 100); (203000, 33 # 100)])]);
   ("BC"%string, [(2017%Z, [(0, 15 # 100); (4596123 # 100, 205 # 1000); (9192145 # 100, 26 # 100); (14249382 # 100, 29 # 100); (203000, 33 # 100)])])].
(** canada/constants.py:135-138 *)
Definition TAX_PERSONAL_DEDUCTION : dict string (dict Z Q) := [("Federal"%string, [(2017%Z, 11635)]); ("BC"%string, [(2017%Z, 10208)])].
(** canada/constants.py:143-146 *)
Definition TAX_CREDIT_RATE : dict string (dict Z Q) := [("Federal"%string, [(2017%Z, 15 # 100)]); ("BC"%string, [(2017%Z, 506 # 10000)])].
(** canada/tax.py:13-34 [TaxCanadaJurisdiction.__init__] with the shipped constants (timings are in
    TimingModel.v) *)
Definition jurisdiction_init (ia : infl_arg) (jurisdiction : string) : res tax :=
  let* b := dget_r String.eqb TAX_BRACKETS jurisdiction in
  let* p := dget_r String.eqb TAX_PERSONAL_DEDUCTION jurisdiction in
  let* c := dget_r String.eqb TAX_CREDIT_RATE jurisdiction in
  tax_init b p c ia.
(** canada/tax.py:162-185 [TaxCanada.__init__] *)
Definition canada_init (ia : infl_arg) (province : string) : res (tax * tax) :=
  let* f := jurisdiction_init ia "Federal"%string in
  let* p := jurisdiction_init ia province in Ok (f, p).

(** canada/constants.py:71-97 RRSP_RRIF_WITHDRAWAL_MIN *)
Definition RRIF_MIN : dict Z Q := [
  (71%Z, 528 # 10000); (72%Z, 540 # 10000); (73%Z, 553 # 10000); (74%Z, 567 # 10000); (75%Z, 582 # 10000); (76%Z, 598 # 10000);
  (77%Z, 617 # 10000); (78%Z, 636 # 10000); (79%Z, 658 # 10000); (80%Z, 682 # 10000); (81%Z, 708 # 10000); (82%Z, 738 # 10000);
  (83%Z, 771 # 10000); (84%Z, 808 # 10000); (85%Z, 851 # 10000); (86%Z, 899 # 10000); (87%Z, 955 # 10000); (88%Z, 1021 # 10000);
  (89%Z, 1099 # 10000); (90%Z, 1192 # 10000); (91%Z, 1306 # 10000); (92%Z, 1449 # 10000); (93%Z, 1634 # 10000); (94%Z, 1879 # 10000);
  (95%Z, 2000 # 10000)].
(** canada/constants.py:58-113: the constants the registered accounts read *)
Definition shipped : reg_consts := {|
  rc_rrsp_rate := 18 # 100; rc_rrsp_max := [(2017%Z, 2575055 # 100)]; rc_rrsp_age := 71; rc_rrif_min := RRIF_MIN;
  rc_withhold := [(2017%Z, [(0, 1 # 10); (5000, 2 # 10); (15000, 3 # 10)])];
  rc_tfsa := [(2009%Z, 5000); (2010%Z, 5000); (2011%Z, 5000); (2012%Z, 5000); (2013%Z, 5500); (2014%Z, 5500); (2015%Z, 10000); (2016%Z, 5500); (2017%Z, 5500)];
  rc_tfsa_age := 18; rc_tfsa_round := 500 |}.

(** canada/settings.py:47-54 (the same values are in data/canada.settings.json) *)
Definition saving_weights : dict string Q := [("RRSP"%string, 2); ("TFSA"%string, 1); ("TaxableAccount"%string, 3)].
Definition withdrawal_weights : dict string Q := [("RRSP"%string, 1); ("TFSA"%string, 2); ("SavingsAccount"%string, 3)].
(** settings.py:151, 155 *)
Definition base_weights : dict string Q := [("Account"%string, 1)].
(** accounts/base.py:13, debt.py:5, linked_limit.py:8, canada/accounts/*.py, ledger/base.py:41, 120:
    the classes an account may have, and the names of the classes in [type(account).__mro__] *)
Inductive aclass : Type := CAccount | CDebt | CTaxable | CRRSP | CTFSA | CResidence.
Definition account_mro : list string := ["Account"; "TaxSource"; "Ledger"; "HighPrecisionOptional"; "object"]%string.
Definition registered_mro : list string := ("RegisteredAccount" :: "LinkedLimitAccount" :: account_mro)%string.
Definition mro (c : aclass) : list string :=
  match c with
  | CAccount => account_mro | CDebt => "Debt" :: account_mro | CTaxable => "TaxableAccount" :: account_mro
  | CRRSP => "RRSP" :: registered_mro | CTFSA => "TFSA" :: registered_mro | CResidence => "PrincipleResidence" :: account_mro
  end%string.
(** settings.py:158-164 (the same in data/settings.json and data/canada.settings.json); the default
    [allocation_strategy] is 'n-age' *)
Definition default_allocation : aparams := {|
  a_target := 65; a_min := 3 # 10; a_max := 3 # 10; a_std_age := 65; a_period := 20; a_adjust := true |}.
(** data/settings.json (which overrides settings.py:170-172) and forecaster.py:73-78 *)
Definition default_tax (ia : infl_arg) : res tax := tax_init [(2017%Z, [(0, 0)])] [(2017%Z, 0)] [(2017%Z, 0)] ia.
