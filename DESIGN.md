# Formal model of ChrisCScott/forecaster in Rocq (Coq 8.16.1)

## 1. Approach

Each Python module is transcribed, function by function and branch by branch, into
total Gallina functions (`rocq/theories/*Model.v`).  Exceptions are values
(`res A := Ok a | Err e`).  Supporting lemmas live in `*Facts.v`, `*Proofs.v`, `*Shape.v` …; the property
theorems (`Cxx_...`) live in `Prop_*.v`, together with the specification vocabulary they are stated in,
`Print Assumptions` and `Example Cxx_sat…` showing that a concrete, non-trivial case meets the hypotheses.

Numbers and data:

* Python `float`/`Decimal` arithmetic is idealised as exact arithmetic, except in RoundTaxModel and RoundModel (C113-C116),
  which repeat tax, inflation, timings and accounts with an arbitrary rounding after every operation.  `Q` is used wherever the code only adds, multiplies, divides and
  compares (so the models are executable); `R` (stdlib Reals) is used where the code uses `exp`, `log` or
  non-integer powers (account growth) and for what is built on it (accounts, links, taxable accounts).
* Python `int` years/ages are `Z`.  `float('inf')` limits are an explicit extended number.
* Python `dict`s are association lists in insertion order; keys are compared with `Qeq_bool`
  (so 1/2 and 2/4 are the same key, as for Python numbers), `Z.eqb` or `String.eqb`.
* Iteration order of `set`s is an arbitrary permutation argument.
* Mutable objects whose aliasing matters are modelled with an explicit heap or an explicit identity
  (LedgerModel, LinkModel, PersonModel, RegModel, SubModel, PrecisionModel, ForecasterModel, TaxCanadaModel).
* `networkx.max_flow_min_cost` is an oracle: a function argument assumed to return a feasible flow, and for
  C80 (priority order) an optimal one — hypotheses of exactly the theorems that need them.

When a property is false of the code, the full statement is kept in `properties.jsonl`; a theorem `..._refuted` exhibits
a concrete witness (or shows the failure for every input), and a `_partial` theorem states the condition under which it
does hold or says exactly what the code does instead.  Such properties are `partial` in MANIFEST.json with the finding in
the note.

## 2. Trusted base

* Coq 8.16.1's kernel (incl. `vm_compute`).
* The reading of the Python code (file:line references at every definition of a model).
* Idealised arithmetic, as above (C113-C116: rounded arithmetic without overflow, NaN or signed zeros; the instances use Flocq's definitions of rounding).
* Axioms: only the standard library's, as `Print Assumptions` lists them:

<!-- AXIOMS -->
* **Closed under the global context** (no axioms) — 445 theorems: C91_new_person, C01_timing_even_schedule, C01_timing_code_schedule, C02_time_series_proportional, C02_time_series_all, C02_missing_key_rejected, C02_zero_weight_rejected, C02_normalized_sums_to_one, C02_normalized_keys, C02_normalized_unchanged, C03_net_inflow_timing, C03_net_inflow_safe_and_greedy, C04_net_outflow_timing, C04_net_outflow_covers_minimally, C05_timing_weights_nonnegative, C05_one_signed_flows_kept, C05_balanced_flows_give_empty_timing, C06_when_conv_exact, C06_frequency_conv_number, C06_frequency_conv_code, C06_frequency_conv_none, C06_rejections, C07_add_transactions_pointwise, C07_subtract_transactions_pointwise, C07_subtract_undoes_add, C07_add_commutes, C08_nearest_year, C08_nearest_year_order_independent, C09_listed_year_unchanged, C09_unlisted_year_scaled_once, C10_dict_adjustment_is_ratio, C10_dict_adjustment_composes, C10_other_arguments, C11_inflation_composes, C11_one_year_factor, C11_default_base, C12_inflation_adjustments_refuted, C12_adjustments_are_reciprocal_partial, C13_scenario_years, C13_scenario_rejects_no_years, C13_series, C14_past_history_immutable, C15_inputs_override_reads, C15_inputs_in_history, C15_inputs_block_writes, C16_year_count, C16_every_elapsed_year_recorded, C16_recorded_value_is_the_read, C17_cached_reads_stable, C17_clear_recomputes, C17_delete_recomputes, C17_assignment_read_back, C17_history_agrees_with_read, C26_construct, C29_lockstep, C29_out_of_step, C29_any_order, C29_once_per_year, C30_rrsp_partial, C30_tfsa_partial, C30_other_accounts_refuted, C30_order_dependence_refuted, C31_accrual_partial, C31_maximum, C31_deductible_and_taxable, C31_leap_day_refuted, C32_conversion_bound_partial, C32_assignment, C32_leap_day_refuted, C33_minimum, C33_affordable, C33_mandatory, C34_withholding_partial, C34_minimum_taxed_twice_refuted, C34_refuted, C35_accrual_partial, C35_base, C35_indexation_refuted, C35_indexation_example_refuted, C35_minor_accrues_refuted, C35_initial_room, C35_future_input_refuted, C35_consistent_partial, C35_consistent_refuted, C38_sum_over_brackets, C38_any_rates, C38_listing_order_irrelevant, C39_nonnegative, C39_formula, C39_monotone_and_bounded, C40_inflated_brackets, C40_indexed, C40_other_parameters, C40_given_parameters, C40_accum_first_refuted, C41_queries_independent_partial, C41_accum_changes_tax_refuted, C41_inconsistent_inflation_refuted, C42_no_own_deductions_partial, C42_counted_twice_refuted, C43_household_is_sum, C43_lists_refuted, C44_sum_of_jurisdictions, C44_marginal_rate_is_sum, C44_merged_thresholds, C44_marginal_bracket_is_highest, C44_tax_money_given, C44_merged_rates_zero_refuted, C44_methods_fail_refuted, C45_one_claimant, C45_within_maximum_partial, C45_unmarried, C45_exceeds_maximum_refuted, C45_uses_current_income_refuted, C46_pension_credit, C46_total_credit, C47_symmetric_orderly_partial, C47_assignment, C47_symmetric_refuted, C48_owners_consistent_partial, C48_assignment_takes_effect, C48_refused_assignment_refuted, C48_stuck_after_refusal_refuted, C49_income, C49_history, C49_readable, C49_rule, C49_clear_cache_refuted, C50_allocation_complete_and_bounded_partial, C50_n_age_follows_rule, C50_transition_follows_rule, C50_failures, C50_all_equity_refuted, C50_custom_trimmed, C50_custom_topped_up_refuted, C51_weighted_average, C51_between_extremes, C51_shipped_between, C51_rate_function_reads_year, C52_documented_amounts, C52_answers, C52_never_negative, C52_schedule, C52_missing_values_refuted, C53_avalanche, C53_snowball, C53_unique, C54_partition, C54_no_threshold, C54_no_threshold_documented_refuted, C55_inflows_within_available, C55_inflow_account_limit, C55_inflow_group_limit, C55_outflows_within_available, C55_outflow_account_limit, C55_outflow_group_limit, C55_group_limit_refuted, C56_exactly_one_kind, C56_accounts_kept_in_order, C56_traversal_sees_every_account, C56_nodes_are_fresh, C56_ordered_subset, C56_subset_refused_iff_not_a_child, C56_weighted_subset, C56_node_of_a_node_refuted, C57_children_partitioned, C57_swap_keeps_every_child, C57_merge_adds, C57_merge_conserves, C57_memo_and_new_flow_within_capacity, C58_double_entry, C58_negative_is_reversed, C58_total_conserved, C58_runs_balance, C59_earliest_affordable, C59_placement, C59_account_known_times, C60_income_and_living_partial, C60_saving_partial, C60_withdrawal_partial, C60_second_call_same_accounts_partial, C60_third_call_refuted, C61_history_refuted, C61_each_year_starts_empty_partial, C62_income_credited_partial, C62_reported_partial, C62_income_lost_refuted, C63_living_expenses_removed_partial, C63_paid_when_due, C63_no_income_refuted, C63_no_retirement_date_refuted, C64_plan_carried_out, C64_total_adds_up_partial, C64_debt_repayment_refuted, C65_available_gains_partial, C65_withholding_added_refuted, C65_withheld_reported_partial, C66_adjustment, C66_settled_next_year, C67_year_start, C67_conserved, C68_lockstep, C69_supplied_wins, C69_supplied_string, C69_building_overwrites_nothing, C69_built_object, C69_settings_used, C69_set_param, C69_high_precision, C69_one_scenario, C69_defaults_fit, C69_allocation_strategy_refuted, C69_memo_ignores_arguments_refuted, C69_infinite_string_refuted, C69_new_forecaster_precision, C69_unused_settings_refuted, C70_converts_exactly, C70_lookup, C70_no_numeric_strings, C70_idempotent, C70_nothing_else, C70_total, C70_attribute_stored, C70_number_tokens, C70_attribute_default, C70_no_file, C70_not_an_object, C70_attribute_assigned, C70_read_attribute, C70_equal_keys_lose_entries_refuted, C70_long_integers_refuted, C71_uncached, C71_whose_value_partial, C71_convert, C71_no_precision, C71_same_values, C71_one_reader, C71_own_function, C71_read_after_write, C71_other_objects_value_refuted, C73_calendar, C73_age_in_year_partial, C73_leap_birth_refuted, C73_age_at_date, C73_leap_date_refuted, C74_room_caps_contributions_partial, C74_input_room_ignored_refuted, C74_input_initial_year_refuted, C74_constructed_room, C76_federal_plus_provincial, C76_caller_dict_modified_refuted, C77_registry, C77_construct_and_call, C77_method_selects_itself, C77_shared_key_refuted, C78_equity_never_rises_with_age, C78_later_retirement_more_equity, C79_tree_accounts, C79_high_interest_first, C79_groups_and_order, C79_low_interest_order_partial, C79_paid_off_debt_refuted, C79_unweighted_left_out_refuted, C80_list_filled_in_order_partial, C80_withdrawals_in_order_partial, C80_nested_list_refuted, C81_minimum_withdrawals_refuted, C82_gross_ignores_plan_refuted, C82_withheld_accumulates_refuted, C83_reported_savings_refuted, C83_reported_savings_partial, C84_two_retirement_years_refuted, C84_same_date_partial, C85_year, C85_horizon, C86_deleted, C86_delete_raises_refuted, C87_round_trip, C87_mixed_keys_refuted, C87_high_precision_keys_refuted, C87_high_precision_truncated_refuted, C87_numeric_strings_refuted, C87_other_reader_refuted, C87_keys_ascending, C88_failed_write_destroys_refuted, C88_read_forgets, C88_like_a_new_reader, C88_stays_usable_partial, C88_failed_read_forgets, C88_unusable_forever_refuted, C89_payments_follow_strategy, C89_payments_bounded, C89_nothing_available, C89_given_total, C89_single_amount_refuted, C89_assign_min_refuted, C90_custom_methods_refuted, C91_age_round_trip, C91_age_counts_birthdays, C91_never_before_birth_partial, C91_refused, C91_birth_date_refuted, C91_none_refuted, C91_optional_refuted, C92_constructed, C92_assigned_partial, C92_constant_rate, C92_none_refuted, C93_copies_correspond, C93_copies_are_new, C93_copying_terminates, C93_inputs_untouched_partial, C93_repeatable, C93_shared_parameters_refuted, C94_behaves_as_mapping_partial, C94_refused, C94_text_assignment_refuted, C94_reading_records_refuted, C94_text_reading_refuted, C95_inflow_node_limit, C95_inflow_node_maximum, C95_outflow_node_limit, C95_node_limit_refuted, C95_plain_trees_distinct, C97_reported, C97_next_year_refuted, C98_deposits_shared_partial, C98_withdrawals_shared_partial, C98_limited_withdrawals_refuted, C98_minimum_refuted, C98_full_member_refuted, C98_left_over_refuted, C99_built_as_asked, C99_others_untouched, C99_ambiguous_rejected, C99_spellings_agree, C100_early_errors_partial, C100_damage_is_local_partial, C100_late_conversion_refuted, C100_bad_frequency_refuted, C100_bad_link_refuted, C101_everyone_counts_partial, C101_new_contributor_refuted, C101_unregistered_contributor_refuted, C101_shared_link_refuted, C102_tax_every_year, C102_monotone_and_bounded, C102_only_bc_refuted, C103_minimum_share, C103_never_exhausted, C104_general_defaults, C104_registered_accounts, C104_taxable_never_drawn_refuted, C104_others_left_out_refuted, C104_default_allocation_constant_refuted, C104_default_tax_free, C105_taxable_income, C105_deductions_credits_partial, C105_recorded, C105_stale_deduction_refuted, C106_leading_item_first, C106_nothing_left_over, C106_withdrawals_leading_first, C106_no_need_left_over, C106_high_interest_debts_first, C107_reported, C107_reconciled, C111_books, C111_order_irrelevant, C111_reads_harmless_partial, C111_net_partial, C111_first_year_net_refuted, C111_raise_assigned_partial, C111_raise_ignored_refuted, C117_mapping, C117_keys_refuted, C117_inherited_refuted, C117_collision_refuted, C117_numbers, C117_hashable, C118_agrees_partial, C118_sum_over_brackets, C118_multi_partial, C118_float_inflation_refuted, C118_canada_zero_refuted, C119_inflation_partial, C119_whole_rates_refuted, C119_default_inflation_refuted, C119_income_partial, C119_raise_table_refuted, C119_rrsp_partial, C119_rrsp_float_inflation_refuted, C119_whole_balance_refuted, C119_tfsa, C120_whose_amounts_partial, C120_same_amounts_partial, C120_retirement_refuted, C120_float_inflation_refuted, C120_shares_partial, C120_whole_incomes_refuted, C120_whose_bounds_partial, C120_bounds_checked, C120_same_bounds_partial, C120_other_bounds_refuted, C120_float_returns_refuted, C121_declaration, C121_inherited, C121_only_properties, C121_inputs_win, C121_next_year, C121_clear_cache, C121_replaced_refuted, C121_name_refuted, C122_household_is_sum, C122_person_is_sum, C122_spouses_is_sum, C122_all_or_nothing, C122_tax_people_is_sum, C122_tax_person_is_sum_partial, C122_tax_person_needs_amounts_refuted, C122_lists_refuted, C122_shared_threshold_partial, C122_accumulated_partial, C122_canadian_household, C122_canadian_arguments, C122_canadian_bounds, C122_combined_deduction_refuted, C122_combined_credit_refuted, C123_every_year, C123_saving_strategy_withdraws_refuted, C124_plan, C124_short_only_when_empty_partial, C124_money_left_only_when_full_partial, C124_shared_place_refuted, C124_shared_place_withdrawals_refuted, C125_tax_of_the_year, C126_cash_flows_partial, C126_accounts_partial, C126_default_timing, C126_add_transactions_partial, C126_undone, C126_total_available, C126_floats_refuted, C126_high_refuted, C126_times_refuted.
* Axioms `ClassicalDedekindReals.sig_forall_dec` — 4 theorems: C26_write_seen_by_group, C26_outside_group_unchanged, C27_inflow_setters, C27_outflow_setters_refuted.
* Axioms `ClassicalDedekindReals.sig_forall_dec`, `FunctionalExtensionality.functional_extensionality_dep` — 36 theorems: C20_add_transaction, C20_bad_times_rejected, C20_flows_split, C20_sequence, C20_deletion, C20_assignment, C25_initial_balance, C25_positive_input_refuted, C26_group_is_history, C26_group_no_duplicates, C36_rules_conserve, C36_only_inflows_no_gain, C36_full_withdrawal, C36_cost_base_nonneg, C112_timing_partial, C112_timing_floats_refuted, C113_monotone, C113_households, C113_inflated, C113_accuracy, C113_totals, C114_monotone, C114_accuracy, C114_accuracy_floats, C115_timing, C115_time_series, C116_year_end, C116_transactions, C116_no_losses, C116_rising, C116_target, C116_emptied, C116_limits, C118_settlement_partial, C118_no_adjustment, C118_settlement_refuted.
* Axioms `ClassicalDedekindReals.sig_forall_dec`, `ClassicalDedekindReals.sig_not_dec`, `FunctionalExtensionality.functional_extensionality_dep` — 1 theorems: C18_growth_continuous.
* Axioms `ClassicalDedekindReals.sig_forall_dec`, `ClassicalDedekindReals.sig_not_dec`, `Classical_Prop.classic`, `FunctionalExtensionality.functional_extensionality_dep` — 93 theorems: C20_cleared, C37_clear_before_reading_partial, C37_clear_is_stale_refuted, C18_growth_positive, C18_growth_composes, C18_growth_nominal, C18_growth_annual, C18_growth_monotone, C18_inverse_recovers_time, C18_inverse_recovers_factor, C19_conservation_refuted, C19_conservation_partial, C19_conservation_years_partial, C20_new_year, C20_reading, C21_reaches_target, C21_proportional, C21_total_within_limits, C21_limits_slack_reaches_target, C22_max_outflows, C22_annual_limit, C23_max_inflows, C23_max_inflows_capped, C23_min_inflows_exact, C23_min_outflows, C23_exhausted_room_gives_zero, C24_time_to_balance_partial, C24_no_later_transactions_partial, C24_zero_growth, C24_terminates, C24_time_to_balance_refuted, C24_not_before_when_refuted, C25_max_inflows, C25_min_inflows, C25_no_outflows, C25_max_inflow, C25_no_minimum_outflows, C26_unlinked_is_plain, C28_max_inflows_partial, C28_max_outflows_partial, C28_min_inflows_partial, C28_min_outflows_partial, C28_no_limit_fails, C28_sequence_of_contributions, C28_iteration_order_irrelevant, C28_simultaneous_flows_refuted, C36_gain_by_the_rules, C36_gain_reported, C36_conserved_every_year, C37_gain_current_without_removals_partial, C37_delete_is_stale_refuted, C60_steady_account_partial, C60_growing_account_refuted, C72_no_overdraft_partial, C72_overdraft_refuted, C75_gain_input_reported_partial, C75_gain_input_breaks_next_year_refuted, C75_gain_input_discarded_refuted, C75_cost_base_input_overwritten_refuted, C96_no_minimums, C96_unlimited_inflows, C96_max_outflow_empties, C96_max_outflow_agrees, C96_drained_once, C96_max_outflow_later_refuted, C96_max_outflow_annual_limit_refuted, C96_growth_is_taxable, C97_account_sign_refuted, C108_books, C108_reads_harmless_partial, C108_years_of_account, C108_conservation_partial, C108_rate_assigned_partial, C108_rate_ignored_refuted, C108_reading_matters_refuted, C109_net_worth_partial, C109_no_withholding_partial, C109_withholding_creates_money_refuted, C110_not_before, C110_steady_account_partial, C110_taken, C110_steady_not_overdrawn_partial, C110_growing_account_partial, C110_taken_too_early_refuted, C110_overdrawn_later_refuted, C110_growth_overlooked_refuted, C110_empty_account_error_refuted, C112_agrees_partial, C112_float_times_refuted, C112_whole_weights_refuted, C112_time_to_balance_refuted, C113_number_types, C123_net_worth.
<!-- /AXIOMS -->

## 3. What is modelled, and what is not

| code | model | left out or simplified |
|------|-------|------------------------|
| utility/timing.py | TimingModel | `Timing` as `dict` subclass is an association list; `when`/`frequency` text codes as strings |
| utility/inflation.py | InflationModel | – |
| utility/precision.py | PrecisionModel | thread-safety |
| scenario.py | ScenarioModel | `HighPrecisionHandler` conversion (identity on exact numbers) |
| ledger/*.py | LedgerModel | metaclass collection of decorated properties (the class is given as a record); `money` variants |
| accounts/util.py | GrowthModel | – |
| accounts/base.py, debt.py | AccountModel; MappingModel (the account as a mapping) | `rate` callables are evaluated to the year's rate; `get`, and the live views `keys()`, `values()`, `items()` |
| accounts/link.py, linked_limit.py | LinkModel | – |
| person.py, accounts' owner property | PersonModel, PersonDatesModel (date/age/raise-rate setters) | `dateutil` parsing of date strings; time of day |
| canada/accounts/{registered_account,rrsp,tfsa}.py | RegModel | balances enter as arguments |
| canada/accounts/taxable_account.py | TaxableModel | – |
| canada/accounts/principle_residence.py | – | a class whose only content is a zero taxable income |
| tax.py | TaxModel | the caches are modelled |
| canada/tax.py | TaxCanadaModel | reading constants from files |
| canada/constants.py | – | data |
| strategy/base.py, allocation.py | StrategyModel | – |
| strategy/gross_transaction.py | LivingModel | – |
| strategy/debt_payment/util.py, transaction/strategy.py | TxStratModel | – |
| strategy/debt_payment/base.py, arguments of TransactionTraversal | DebtPayModel | – |
| strategy/transaction/{node,graph,util,base}.py | TxGraphModel | networkx internals (oracle); `repr` |
| forecast/subforecast.py | SubModel | – |
| forecast/{income,living_expenses,saving,withdrawal,tax}.py | ForecastsModel | recorded-property caching within a call |
| forecast/base.py | HorizonModel | – |
| forecaster.py | ForecasterModel; DeepCopyModel (copying of `run_forecast`'s arguments: Python's deepcopy on an object graph) | what constructors do with accepted arguments; in DeepCopyModel the forecast itself is an arbitrary program over the objects it is handed; Python's recursion limit |
| value_reader.py, settings.py | ReaderModel | tokenising of JSON text; Python's `float(text)`, `str`, `repr` are parameters |
| main/UI scripts, tests | – | not part of the library |

## 4. Plan per property

| id | model | proof |
|----|-------|-------|
| C01-C07 | TimingModel | induction over dict / frequency; prefix-sum invariants |
| C08-C10 | InflationModel | fold characterisations, field laws |
| C11-C13 | ScenarioModel | induction over year ranges; C12 refuted by witness |
| C14-C17 | LedgerModel: state machine of recorded properties with arbitrary getter programs | invariants by induction over operation lists |
| C18-C25 | GrowthModel, AccountModel over R | Rpower laws, sums, induction over years |
| C26-C28, C72 | LinkModel | invariants over registration/write histories |
| C29-C35, C74 | RegModel | induction over the group; case analysis; leap-day witnesses |
| C36-C37, C75 | TaxableModel | induction over sorted transactions and over years |
| C38-C44 | TaxModel | induction over sorted brackets; cache invariants |
| C45-C46, C76 | TaxCanadaModel | case analysis, caller's dict on a heap |
| C47-C49, C73 | PersonModel | invariants over operation lists; calendar arithmetic |
| C50-C51, C77-C78 | StrategyModel | case analysis / lra |
| C52 | LivingModel | case analysis |
| C53-C54, C79 | TxStratModel | sortedness/permutation |
| C55-C57, C80-C81 | TxGraphModel (+ TxFlow* lemmas) | structural induction on trees; feasibility/optimality of the oracle's flow |
| C126 | KindSubModel | every typed operation is shown to fail or succeed with SubModel.v's, with the same values (simulation), carrying the types of times and amounts as an invariant; induction over the transactions, the timing and the search for a time |
| C125 | CanadaForecastModel | the tax forecast's year moves with the forecast's (induction over next_year's loops); C107 gives the recorded tax, C122 its value and bounds, C66 the settlement |
| C124 | PlanForecastModel | the strategy's priority tree lists the account (TxStratModel), so C106's augmenting-path theorems apply to both plans of the year; signs from C55; the year's heaps from C85 tie the limits to what the accounts hold at the year's end; induction over the years |
| C123 | PlanForecastModel: the forecast of HorizonModel with plans made by TxStratModel's priority tree and TxGraphModel's traversal; balances, room and everything else strategies read evolve arbitrarily from year to year | the traversal's bounds (C55) and the tree's accounts (C79) give the plan's shape; the year and net-worth theorems (C85, C109) then apply; induction over the years |
| C122 | TaxMultiModel: Tax.__call__ on money, people, sets and lists, all of TaxMulti's methods and TaxCanada.__call__, over plain and Canadian jurisdictions with their caches; the shipped pension and spousal amounts | every successful call leaves caches derived from the constructor's tables (as C41), on which each person's tax is the same; induction over the visiting recursion and the jurisdictions |
| C121 | DecoratorModel: the decorators of ledger/recorded_property.py as functions on functions, the metaclass LedgerType and Ledger.__init__ over arbitrary method resolution orders | induction over the decorators: each wrapping is idempotent; lookup in the attributes of a class before and after the metaclass |
| C120 | KindStratModel: strategy/gross_transaction.py, strategy/allocation.py and the sharing of living expenses with the Python types of the numbers and the class-level caches of the attributes | simulation: each computation reads the caches consistently and agrees with the untyped model; invariant over all programs that every cached value was given to some strategy |
| C119 | KindRegModel: scenario.py, Person's income and rrsp.py/tfsa.py with the Python types of the numbers | each function shown to agree with the untyped model (ScenarioModel, PersonModel, RegModel); induction over years; case analysis of where floats meet high precision |
| C118 | KindTaxModel: tax.py and the settlement in forecast/base.py with the Python types of the numbers | simulation of TaxModel by the typed model, kept by every question; case analysis of where floats meet high precision |
| C117 | TxDictModel: subforecast.py's TransactionDict, with ids of unhashable keys as an arbitrary function | invariant over histories of uses: underlying keys are the translated keys of the specification |
| C116 | RoundModel: accounts/util.py and accounts/base.py's transactions, balances, returns and largest flows with an arbitrary rounding after every operation and an arbitrary power function | monotonicity of folds of rounded additions; forward error analysis: the same computed growth factors enter the plan and the balance, so the power's error cancels |
| C115 | RoundModel: timing.py's schedule and time series with rounding, equal keys merging | gap between consecutive computed times; relative error of sums |
| C114 | RoundModel: scenario.py's accumulation with rounding | products of rounded factors are monotone in their first factor; relative error by induction over the years |
| C113 | RoundTaxModel: tax.py's brackets, accumulated tax, people and jurisdictions with an arbitrary rounding after every operation | the tax as a climb through the sorted brackets; monotone because tax at a threshold is computed by the same operations from both sides; error bound by induction over brackets; Flocq only for the two instances |
| C112 | KindModel: accounts/base.py, accounts/util.py and timing.py again, with every number tagged int, float or high-precision and Python's rules for mixing them | refinement of AccountModel/GrowthModel proved by induction over histories and dicts. Exact arithmetic; the conversion is exact; Timing for scalar arguments only. |
| C111 | PersonYearsModel: PersonModel's ledger class with changing attributes, arbitrary operation sequences | simulation by a book of settled figures; reading settles only what is shown; counterexamples for every person |
| C110 | ShiftModel: SubForecast's choice of time for an actual Account (AccountModel over R), recording and undoing | the growing set of candidate times keeps the known ones and adds only times between neighbours; piecewise growth of the balance between candidate times; counterexamples for every positive rate |
| C109 | HorizonModel's years with AccountModel's accounts (the heap's objects are the accounts' transactions; closing an account is AccountModel.next_year) | year lemma of C85 extended to the accounts' contents, C67 for the carry-over, C19 for the accounts' growth; induction over the years |
| C108 | AccountLedgerModel (Account's recorded properties as getter programs over LedgerModel, with rate_callable, nper and _transactions as attributes) | simulation between the ledger (histories, caches, recording in any order) and a book keeping last year's balance and transactions and this year's settled balance and rate; corollaries by induction over the operations; refutations on concrete accounts |
| C107 | ReportModel (Forecast as a ledger over HorizonModel's state), LedgerModel, HorizonModel | recorded values are the pure getters' values (C16's evaluation relation) at the state after the year's calls; induction over the years; cash from C85/C67 in terms of the recorded values |
| C106 | TxGraphModel (whole graph construction), TxFlowLead, TxStratModel | induction over the graph construction for the weights of the leading item and of later items; flow decomposition and path exchange against any optimal flow; two passes with memo; strategy tree from TxStratModel. Nothing is left over for any account reached from the root through lists only, whatever its siblings (TxFlowLine; deposits and withdrawals): augmenting path against a maximum flow. TxSolver: executable certified solver used only in examples |
| C105 | PersonModel, LedgerModel | invariant over all histories tying the year's entries to the accounts' totals at the first read |
| C104 | CanadaConstsModel | the shipped weights plugged into the tree theorem (C79) and the allocation bound (C50); refutations for all households |
| C103 | CanadaConstsModel | the rate as one function of age, monotone by induction on age; induction on years |
| C102 | CanadaConstsModel | the shipped tables plugged into the bracket theorems (C38, C40), schedule spelled out as sums of excesses |
| C101 | RegBuildModel | invariant over all operation histories: an account is in exactly the group its link names; room left is then a sum over that group; refutations for assigned contributors |
| C100 | RegBuildModel | case analysis of where the constructor raises, with the world kept; refutations by concrete calls |
| C99 | RegBuildModel | effects of each stage of the constructor (alias arguments, Account, link, subclass) composed; AccountLink objects are heap references |
| C98 | TxGraphModel, TxFlow* | the graph of a flat group has one direct edge of the share's capacity per member and dearer overflow edges; an optimal flow fills the direct edges exactly, so balancing changes nothing; a limit of the group itself caps both the amount and the shares; refutations by recorded flows that carry optimality certificates |
| C97 | SubModel, AccountModel | undo restores every account's values (C60), so the sum taken at the second call is the one of the first; the Account case through C96's max_outflow |
| C96 | AccountModel | algebra over R on transactions_to_balance with the plain account's limits; the balance is linear in the transactions |
| C95 | TxGraphModel | invariant on the edges around every tree node (TxFlowNode); cut through the node's limit edge; conservation of a feasible flow |
| C94 | MappingModel | refinement: each use of the account simulates one step of a partial function Q -> option Q; induction over the history |
| C93 | DeepCopyModel | deepcopy over a heap of objects with a memo; invariant: the memo is an injective correspondence whose range is exactly the new addresses; the forecast as an arbitrary sequence of actions on known objects; reachability invariant |
| C91-C92 | PersonDatesModel | calendar arithmetic (dateutil.relativedelta in whole years); induction over assignments and years |
| C89-C90 | DebtPayModel (+ TxGraphModel) | C80 and C53 composed; induction on fuel over trees |
| C58-C61 | SubModel | conservation by induction over runs; record aliasing on a heap |
| C62-C66, C82-C84 | ForecastsModel | programs over SubModel, sums over people |
| C67-C68, C85 | HorizonModel | induction over years |
| C69 | ForecasterModel | memo-table invariants over builds of arbitrary depth |
| C70, C86-C88 | ReaderModel | induction over JSON trees; reader/file state machine |
| C71 | PrecisionModel | invariant over access histories |

## 5. Tests of the theorems against wrong programs

`tools/mutate.py` edits definitions of the models in a scratch copy, rebuilds and records which theorems fail;
`seeded/LOG.jsonl` has one line per attempt.
