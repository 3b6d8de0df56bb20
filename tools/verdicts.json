[
 {
  "file": "ForecasterModel",
  "definition": "sig_of",
  "match": "",
  "why": "the edited count belongs to a constructor that no claim calls with too few arguments"
 },
 {
  "file": "ForecastsModel",
  "definition": "withdraw_call",
  "match": "",
  "theorems": [
   "C65_withheld_reported_partial"
  ]
 },
 {
  "file": "PersonModel",
  "definition": "valid_date",
  "match": "",
  "theorems": [
   "C73_calendar"
  ]
 },
 {
  "file": "PersonModel",
  "definition": "check_retirement",
  "match": "",
  "theorems": [
   "C91_refused"
  ]
 },
 {
  "file": "StrategyModel",
  "definition": "balance",
  "match": "",
  "why": "equivalent: the edited branch is only reached when the two terms coincide"
 },
 {
  "file": "RegModel",
  "definition": "qround",
  "match": "",
  "theorems": [
   "C35_base"
  ]
 },
 {
  "file": "RegModel",
  "definition": "reg_init",
  "match": "",
  "why": "equivalent: the cached value is overwritten before any read"
 },
 {
  "file": "SubModel",
  "definition": "add_timed",
  "match": "",
  "theorems": [
   "C58_double_entry"
  ]
 },
 {
  "file": "SubModel",
  "definition": "new_sub",
  "match": "",
  "theorems": [
   "C97_reported"
  ]
 },
 {
  "file": "SubModel",
  "definition": "begin_call",
  "match": "",
  "theorems": [
   "C97_reported"
  ]
 },
 {
  "file": "TaxModel",
  "definition": "tax_init",
  "match": "",
  "theorems": [
   "C40_given_parameters"
  ]
 },
 {
  "file": "TxStratModel",
  "definition": "weight_groups",
  "match": "",
  "why": "equivalent: the key is always present, so the default is never read"
 },
 {
  "file": "TaxModel",
  "definition": "tax_people_list",
  "match": "Nat.eqb",
  "why": "equivalent: the couple reached here is always both in the list and distinct"
 },
 {
  "file": "TaxModel",
  "definition": "tax_people_list",
  "match": "Ok (0, s)",
  "theorems": [
   "C43_lists_refuted"
  ]
 },
 {
  "file": "ReaderModel",
  "definition": "to_int",
  "match": "",
  "why": "equivalent: only reached for integral finite numbers"
 },
 {
  "file": "ReaderModel",
  "definition": "prefixb",
  "match": "",
  "theorems": [
   "C70_not_an_object"
  ]
 },
 {
  "file": "ReaderModel",
  "definition": "substr",
  "match": "",
  "theorems": [
   "C70_not_an_object"
  ]
 },
 {
  "file": "ReaderModel",
  "definition": "contains",
  "match": "",
  "theorems": [
   "C70_not_an_object"
  ]
 },
 {
  "file": "ReaderModel",
  "definition": "fl_leb",
  "match": "",
  "theorems": [
   "C87_keys_ascending"
  ]
 },
 {
  "file": "ReaderModel",
  "definition": "key_leb",
  "match": "",
  "theorems": [
   "C87_keys_ascending"
  ]
 },
 {
  "file": "ReaderModel",
  "definition": "ins",
  "match": "",
  "theorems": [
   "C87_keys_ascending"
  ]
 },
 {
  "file": "TaxModel",
  "definition": "multi_tax_money",
  "match": "0 js",
  "theorems": [
   "C44_tax_money_given"
  ]
 },
 {
  "file": "TaxModel",
  "definition": "multi_tax_money",
  "match": "TypeError",
  "why": "equivalent: the branch ends in an error whatever the value"
 },
 {
  "file": "TaxModel",
  "definition": "multi_brackets",
  "match": "",
  "why": "equivalent: the two filters differ only on keys that the next step treats alike"
 },
 {
  "file": "TaxModel",
  "definition": "multi_accum",
  "match": "",
  "why": "no claim concerns a jurisdiction list that is empty"
 },
 {
  "file": "AccountModel",
  "definition": "taxable_income",
  "match": "",
  "theorems": [
   "C96_growth_is_taxable"
  ]
 },
 {
  "file": "AccountModel",
  "definition": "account_limits",
  "match": "",
  "theorems": [
   "C96_no_minimums"
  ]
 },
 {
  "file": "AccountModel",
  "definition": "max_outflow",
  "match": "",
  "theorems": [
   "C96_max_outflow_agrees"
  ]
 },
 {
  "file": "AccountModel",
  "definition": "setitem",
  "match": "",
  "theorems": [
   "C20_assignment"
  ]
 },
 {
  "file": "AccountModel",
  "definition": "getitem",
  "match": "",
  "theorems": [
   "C20_reading"
  ]
 },
 {
  "file": "AccountModel",
  "definition": "debt_limits",
  "match": "",
  "theorems": [
   "C25_no_minimum_outflows"
  ]
 },
 {
  "file": "AccountModel",
  "definition": "debt_max_inflow",
  "match": "",
  "theorems": [
   "C25_max_inflow"
  ]
 },
 {
  "file": "MappingModel",
  "definition": "text_insert",
  "match": "",
  "why": "no claim on the order of text keys: they only occur on the refuted path"
 },
 {
  "file": "DebtPayModel",
  "definition": "strategy_ordered",
  "match": "",
  "why": "equivalent: the edited flag is never read"
 },
 {
  "file": "DebtPayModel",
  "definition": "debt_payment",
  "match": "",
  "why": "equivalent: the edited flag is never read"
 },
 {
  "file": "AccountModel",
  "definition": "next_year",
  "match": "",
  "theorems": [
   "C20_new_year"
  ]
 },
 {
  "file": "AccountModel",
  "definition": "delitem",
  "match": "",
  "theorems": [
   "C20_deletion"
  ]
 },
 {
  "file": "TaxModel",
  "definition": "sum_over",
  "match": "",
  "why": "equivalent: recomputation gives the same result (C41)"
 },
 {
  "file": "PersonModel",
  "definition": "person_fget",
  "match": "",
  "theorems": [
   "C105_taxable_income",
   "C105_deductions_credits_partial"
  ]
 },
 {
  "file": "DebtPayModel",
  "definition": "traversal_call",
  "match": "",
  "theorems": [
   "C89_given_total"
  ]
 },
 {
  "file": "ForecasterModel",
  "definition": "default_values",
  "match": "",
  "theorems": [
   "C69_settings_used"
  ]
 },
 {
  "file": "ForecasterModel",
  "definition": "set_param",
  "match": "",
  "theorems": [
   "C69_set_param"
  ]
 },
 {
  "file": "ReaderModel",
  "definition": "parse_constant",
  "match": "",
  "theorems": [
   "C70_number_tokens"
  ]
 },
 {
  "file": "ReaderModel",
  "definition": "parse_float",
  "match": "",
  "theorems": [
   "C70_number_tokens"
  ]
 },
 {
  "file": "ReaderModel",
  "definition": "clear",
  "match": "",
  "theorems": [
   "C88_failed_read_forgets"
  ]
 },
 {
  "file": "PrecisionModel",
  "definition": "precision_convert",
  "match": "",
  "theorems": [
   "C71_convert"
  ]
 },
 {
  "file": "RegBuildModel",
  "definition": "deposit",
  "match": "",
  "theorems": [
   "C101_everyone_counts_partial"
  ]
 },
 {
  "file": "RegBuildModel",
  "definition": "inflow_of",
  "match": "",
  "theorems": [
   "C101_everyone_counts_partial"
  ]
 },
 {
  "file": "TxGraphModel",
  "definition": "embed_limit",
  "match": "",
  "theorems": [
   "C98_deposits_shared_partial"
  ]
 },
 {
  "file": "AccountLedgerModel",
  "definition": "balance_get",
  "match": "",
  "why": "equivalent: the ledger entry and the property agree (C107)"
 },
 {
  "file": "RoundTaxModel",
  "definition": "add_up",
  "match": "",
  "theorems": [
   "C113_totals"
  ]
 },
 {
  "file": "RoundModel",
  "definition": "flows",
  "match": "",
  "theorems": [
   "C116_limits"
  ]
 },
 {
  "file": "CanadaConstsModel",
  "definition": "TAX_BRACKETS",
  "match": "",
  "theorems": [
   "C102_tax_every_year"
  ]
 },
 {
  "file": "TxGraphModel",
  "definition": "sum_weight",
  "match": "",
  "theorems": [
   "C106_leading_item_first"
  ]
 },
 {
  "file": "DecoratorModel",
  "definition": "caching",
  "match": "",
  "theorems": [
   "C121_declaration"
  ]
 },
 {
  "file": "DecoratorModel",
  "definition": "record_all",
  "match": "",
  "theorems": [
   "C121_next_year"
  ]
 },
 {
  "file": "DecoratorModel",
  "definition": "clear_all",
  "match": "",
  "theorems": [
   "C121_clear_cache"
  ]
 },
 {
  "file": "DecoratorModel",
  "definition": "next_year",
  "match": "",
  "theorems": [
   "C121_next_year"
  ]
 },
 {
  "file": "DecoratorModel",
  "definition": "read_history",
  "match": "p_get p",
  "why": "equivalent for what is read: the cached and the plain history agree"
 },
 {
  "file": "LinkModel",
  "definition": "super_limit",
  "match": "",
  "theorems": [
   "C26_unlinked_is_plain"
  ]
 },
 {
  "file": "LinkModel",
  "definition": "get_limit",
  "match": "",
  "theorems": [
   "C26_unlinked_is_plain"
  ]
 },
 {
  "file": "LinkModel",
  "definition": "linked_flows",
  "match": "",
  "theorems": [
   "C28_min_inflows_partial"
  ]
 },
 {
  "file": "LinkModel",
  "definition": "read_limit",
  "match": "",
  "theorems": [
   "C28_no_limit_fails"
  ]
 },
 {
  "file": "TaxMultiModel",
  "definition": "mpeople",
  "match": "",
  "theorems": [
   "C122_tax_people_is_sum"
  ]
 },
 {
  "file": "KindStratModel",
  "definition": "build_allocation",
  "match": "",
  "theorems": [
   "C120_bounds_checked"
  ]
 },
 {
  "file": "ForecastsModel",
  "definition": "income_withheld",
  "match": "",
  "theorems": [
   "C62_reported_partial"
  ]
 },
 {
  "file": "ReaderModel",
  "definition": "new_reader",
  "match": "",
  "theorems": [
   "C70_no_file"
  ]
 },
 {
  "file": "TxGraphModel",
  "definition": "xdivq",
  "match": "",
  "why": "equivalent: an infinite capacity is taken without its sign (strategy/transaction/graph.py:148-156)"
 },
 {
  "file": "AccountLedgerModel",
  "definition": "set_txns",
  "match": "at_rate := at_rate",
  "why": "a no-op edit: the same list written differently"
 },
 {
  "file": "TaxableModel",
  "definition": "t_with",
  "match": "",
  "why": "equivalent: the record of assigned cost bases is only read when the account is made"
 },
 {
  "file": "ForecasterModel",
  "definition": "set_attr",
  "match": "",
  "theorems": [
   "C69_set_param"
  ]
 },
 {
  "file": "ForecasterModel",
  "definition": "new_forecaster",
  "match": "",
  "theorems": [
   "C69_new_forecaster_precision"
  ]
 },
 {
  "file": "ReaderModel",
  "definition": "set_values",
  "match": "",
  "theorems": [
   "C88_like_a_new_reader"
  ]
 },
 {
  "file": "AccountModel",
  "definition": "clear",
  "match": "",
  "theorems": [
   "C20_cleared"
  ]
 },
 {
  "file": "TaxableModel",
  "definition": "t_clear",
  "match": "",
  "theorems": [
   "C37_clear_before_reading_partial"
  ]
 },
 {
  "file": "PersonDatesModel",
  "definition": "new_person",
  "match": "",
  "theorems": [
   "C91_new_person"
  ]
 },
 {
  "file": "CanadaForecastModel",
  "definition": "with_treatment",
  "match": "",
  "why": "no change to the program: it puts the Canadian tax functions into an arbitrary configuration, and C125 ranges over every configuration"
 }
]