{
 "claims": [
  {
   "property": "C01",
   "status": "proved",
   "theorems": [
    "C01_timing_even_schedule",
    "C01_timing_code_schedule"
   ],
   "note": ""
  },
  {
   "property": "C02",
   "status": "proved",
   "theorems": [
    "C02_time_series_proportional",
    "C02_time_series_all",
    "C02_missing_key_rejected",
    "C02_zero_weight_rejected",
    "C02_normalized_sums_to_one",
    "C02_normalized_keys",
    "C02_normalized_unchanged"
   ],
   "note": ""
  },
  {
   "property": "C03",
   "status": "proved",
   "theorems": [
    "C03_net_inflow_timing",
    "C03_net_inflow_safe_and_greedy"
   ],
   "note": ""
  },
  {
   "property": "C04",
   "status": "proved",
   "theorems": [
    "C04_net_outflow_timing",
    "C04_net_outflow_covers_minimally"
   ],
   "note": ""
  },
  {
   "property": "C05",
   "status": "proved",
   "theorems": [
    "C05_timing_weights_nonnegative",
    "C05_one_signed_flows_kept",
    "C05_balanced_flows_give_empty_timing"
   ],
   "note": ""
  },
  {
   "property": "C06",
   "status": "proved",
   "theorems": [
    "C06_when_conv_exact",
    "C06_frequency_conv_number",
    "C06_frequency_conv_code",
    "C06_frequency_conv_none",
    "C06_rejections"
   ],
   "note": ""
  },
  {
   "property": "C07",
   "status": "proved",
   "theorems": [
    "C07_add_transactions_pointwise",
    "C07_subtract_transactions_pointwise",
    "C07_subtract_undoes_add",
    "C07_add_commutes"
   ],
   "note": ""
  },
  {
   "property": "C08",
   "status": "proved",
   "theorems": [
    "C08_nearest_year",
    "C08_nearest_year_order_independent"
   ],
   "note": ""
  },
  {
   "property": "C09",
   "status": "proved",
   "theorems": [
    "C09_listed_year_unchanged",
    "C09_unlisted_year_scaled_once"
   ],
   "note": ""
  },
  {
   "property": "C10",
   "status": "proved",
   "theorems": [
    "C10_dict_adjustment_is_ratio",
    "C10_dict_adjustment_composes",
    "C10_other_arguments"
   ],
   "note": ""
  },
  {
   "property": "C11",
   "status": "proved",
   "theorems": [
    "C11_inflation_composes",
    "C11_one_year_factor",
    "C11_default_base"
   ],
   "note": ""
  },
  {
   "property": "C12",
   "status": "partial",
   "theorems": [
    "C12_inflation_adjustments_refuted",
    "C12_adjustments_are_reciprocal_partial"
   ],
   "note": "False of the code: C12_inflation_adjustments_refuted (2% inflation: the factor for later years is < 1). What holds: the method returns the reciprocal of inflation_adjust(year, base) for every year covered (_partial)."
  },
  {
   "property": "C13",
   "status": "proved",
   "theorems": [
    "C13_scenario_years",
    "C13_scenario_rejects_no_years",
    "C13_series"
   ],
   "note": ""
  },
  {
   "property": "C14",
   "status": "proved",
   "theorems": [
    "C14_past_history_immutable"
   ],
   "note": ""
  },
  {
   "property": "C15",
   "status": "proved",
   "theorems": [
    "C15_inputs_override_reads",
    "C15_inputs_in_history",
    "C15_inputs_block_writes"
   ],
   "note": ""
  },
  {
   "property": "C16",
   "status": "proved",
   "theorems": [
    "C16_year_count",
    "C16_every_elapsed_year_recorded",
    "C16_recorded_value_is_the_read"
   ],
   "note": ""
  },
  {
   "property": "C17",
   "status": "proved",
   "theorems": [
    "C17_cached_reads_stable",
    "C17_clear_recomputes",
    "C17_delete_recomputes",
    "C17_assignment_read_back",
    "C17_history_agrees_with_read"
   ],
   "note": ""
  },
  {
   "property": "C18",
   "status": "proved",
   "theorems": [
    "C18_growth_positive",
    "C18_growth_composes",
    "C18_growth_nominal",
    "C18_growth_annual",
    "C18_growth_continuous",
    "C18_growth_monotone",
    "C18_inverse_recovers_time",
    "C18_inverse_recovers_factor"
   ],
   "note": ""
  },
  {
   "property": "C19",
   "status": "partial",
   "theorems": [
    "C19_conservation_refuted",
    "C19_conservation_partial",
    "C19_conservation_years_partial"
   ],
   "note": "False when the rate differs between two years: next_year applies the NEW year's rate to the old year's money (C19_conservation_refuted). Proved for a constant rate, for one year and for any number of years and transactions (_partial)."
  },
  {
   "property": "C20",
   "status": "proved",
   "theorems": [
    "C20_add_transaction",
    "C20_bad_times_rejected",
    "C20_flows_split",
    "C20_sequence",
    "C20_new_year",
    "C20_deletion",
    "C20_assignment",
    "C20_cleared",
    "C20_reading"
   ],
   "note": ""
  },
  {
   "property": "C21",
   "status": "proved",
   "theorems": [
    "C21_reaches_target",
    "C21_proportional",
    "C21_total_within_limits",
    "C21_limits_slack_reaches_target"
   ],
   "note": ""
  },
  {
   "property": "C22",
   "status": "proved",
   "theorems": [
    "C22_max_outflows",
    "C22_annual_limit"
   ],
   "note": ""
  },
  {
   "property": "C23",
   "status": "proved",
   "theorems": [
    "C23_max_inflows",
    "C23_max_inflows_capped",
    "C23_min_inflows_exact",
    "C23_min_outflows",
    "C23_exhausted_room_gives_zero"
   ],
   "note": ""
  },
  {
   "property": "C24",
   "status": "partial",
   "theorems": [
    "C24_time_to_balance_partial",
    "C24_no_later_transactions_partial",
    "C24_zero_growth",
    "C24_terminates",
    "C24_time_to_balance_refuted",
    "C24_not_before_when_refuted"
   ],
   "note": "False when transactions occur after `when` or when the answer lies before `when` (two refutations with witnesses). Proved: zero-growth cases, termination, and the exact equation that the returned time does satisfy (_partial)."
  },
  {
   "property": "C25",
   "status": "partial",
   "theorems": [
    "C25_initial_balance",
    "C25_positive_input_refuted",
    "C25_max_inflows",
    "C25_min_inflows",
    "C25_no_outflows",
    "C25_max_inflow",
    "C25_no_minimum_outflows"
   ],
   "note": "False only for an initial-year balance given through `inputs`, which bypasses the sign correction (C25_positive_input_refuted). All other parts are proved without restriction."
  },
  {
   "property": "C26",
   "status": "proved",
   "theorems": [
    "C26_write_seen_by_group",
    "C26_outside_group_unchanged",
    "C26_group_is_history",
    "C26_group_no_duplicates",
    "C26_construct",
    "C26_unlinked_is_plain"
   ],
   "note": ""
  },
  {
   "property": "C27",
   "status": "partial",
   "theorems": [
    "C27_inflow_setters",
    "C27_outflow_setters_refuted"
   ],
   "note": "False: the outflow setters write the inflow limit (C27_outflow_setters_refuted, for every account). The inflow setters are proved correct."
  },
  {
   "property": "C28",
   "status": "partial",
   "theorems": [
    "C28_max_inflows_partial",
    "C28_max_outflows_partial",
    "C28_min_inflows_partial",
    "C28_min_outflows_partial",
    "C28_no_limit_fails",
    "C28_sequence_of_contributions",
    "C28_iteration_order_irrelevant",
    "C28_simultaneous_flows_refuted"
   ],
   "note": "False for simultaneous use: computing max_inflows for two accounts of a group first and recording both exceeds the limit (C28_simultaneous_flows_refuted). Proved: each single request is within what the group has left, and so is any sequence of request-then-record (C28_sequence_of_contributions). Shared minimums: min_inflows is exactly, and min_outflows at most (unless the account runs dry, exactly) what the group still lacks (C28_min_inflows_partial, C28_min_outflows_partial). While no limit has been set for a group, every flow computation of its members raises TypeError (C28_no_limit_fails)."
  },
  {
   "property": "C29",
   "status": "proved",
   "theorems": [
    "C29_lockstep",
    "C29_out_of_step",
    "C29_any_order",
    "C29_once_per_year"
   ],
   "note": ""
  },
  {
   "property": "C30",
   "status": "partial",
   "theorems": [
    "C30_rrsp_partial",
    "C30_tfsa_partial",
    "C30_other_accounts_refuted",
    "C30_order_dependence_refuted"
   ],
   "note": "False: contributions made to any account of the group but the first advanced are forgotten, and the result depends on the order of advancing (two refutations). Proved when only the first-advanced account was used (_partial)."
  },
  {
   "property": "C31",
   "status": "partial",
   "theorems": [
    "C31_accrual_partial",
    "C31_maximum",
    "C31_deductible_and_taxable",
    "C31_leap_day_refuted"
   ],
   "note": "False for contributors born on 29 February (person.age is one too low in common years). Proved for all others (_partial), as are the indexed maximum and deductibility/taxability without restriction."
  },
  {
   "property": "C32",
   "status": "partial",
   "theorems": [
    "C32_conversion_bound_partial",
    "C32_assignment",
    "C32_leap_day_refuted"
   ],
   "note": "False for owners born on 29 February. Proved for all others after any sequence of assignments; rejection of late years is proved without restriction."
  },
  {
   "property": "C33",
   "status": "proved",
   "theorems": [
    "C33_minimum",
    "C33_affordable",
    "C33_mandatory"
   ],
   "note": ""
  },
  {
   "property": "C34",
   "status": "partial",
   "theorems": [
    "C34_withholding_partial",
    "C34_minimum_taxed_twice_refuted",
    "C34_refuted"
   ],
   "note": "False after conversion to RRIF: the mandatory minimum is added to, not exempted from, the amount on which tax is withheld. Proved before conversion (_partial)."
  },
  {
   "property": "C35",
   "status": "partial",
   "theorems": [
    "C35_accrual_partial",
    "C35_base",
    "C35_indexation_refuted",
    "C35_indexation_example_refuted",
    "C35_minor_accrues_refuted",
    "C35_initial_room",
    "C35_future_input_refuted",
    "C35_consistent_partial",
    "C35_consistent_refuted"
   ],
   "note": "False in three ways: indexation is inverted, a 17-year-old accrues, inputs for later years only make construction fail. Proved: what is accrued in each case, the initial room as a sum, agreement of accounts opened in different years away from age 16."
  },
  {
   "property": "C36",
   "status": "proved",
   "theorems": [
    "C36_gain_by_the_rules",
    "C36_rules_conserve",
    "C36_only_inflows_no_gain",
    "C36_full_withdrawal",
    "C36_cost_base_nonneg",
    "C36_gain_reported",
    "C36_conserved_every_year"
   ],
   "note": ""
  },
  {
   "property": "C37",
   "status": "partial",
   "theorems": [
    "C37_gain_current_without_removals_partial",
    "C37_delete_is_stale_refuted",
    "C37_clear_before_reading_partial",
    "C37_clear_is_stale_refuted"
   ],
   "note": "False: deleting a transaction (or assigning through the mapping) after the gain was read leaves the cached gain. Proved for histories that only add transactions."
  },
  {
   "property": "C38",
   "status": "proved",
   "theorems": [
    "C38_sum_over_brackets",
    "C38_any_rates",
    "C38_listing_order_irrelevant"
   ],
   "note": ""
  },
  {
   "property": "C39",
   "status": "proved",
   "theorems": [
    "C39_nonnegative",
    "C39_formula",
    "C39_monotone_and_bounded"
   ],
   "note": ""
  },
  {
   "property": "C40",
   "status": "partial",
   "theorems": [
    "C40_inflated_brackets",
    "C40_indexed",
    "C40_other_parameters",
    "C40_given_parameters",
    "C40_accum_first_refuted"
   ],
   "note": "Proved: inflated brackets, rates kept, accumulated table, scaling. False when accum(year) is the first query for an unlisted year: it inflates the rates (C40_accum_first_refuted)."
  },
  {
   "property": "C41",
   "status": "partial",
   "theorems": [
    "C41_queries_independent_partial",
    "C41_accum_changes_tax_refuted",
    "C41_inconsistent_inflation_refuted"
   ],
   "note": "False when accum is queried first, and with inconsistent inflation callables. Proved for consistent inflation and any sequence of other queries."
  },
  {
   "property": "C42",
   "status": "partial",
   "theorems": [
    "C42_no_own_deductions_partial",
    "C42_counted_twice_refuted"
   ],
   "note": "False: a person's own deductions and credits are counted twice (C42_counted_twice_refuted gives the formula charged). Proved for people with none of their own."
  },
  {
   "property": "C43",
   "status": "partial",
   "theorems": [
    "C43_household_is_sum",
    "C43_lists_refuted"
   ],
   "note": "Proved for sets of people with any spouse structure and iteration order; lists, which the documentation allows, always raise (C43_lists_refuted)."
  },
  {
   "property": "C44",
   "status": "partial",
   "theorems": [
    "C44_sum_of_jurisdictions",
    "C44_marginal_rate_is_sum",
    "C44_merged_thresholds",
    "C44_marginal_bracket_is_highest",
    "C44_tax_money_given",
    "C44_merged_rates_zero_refuted",
    "C44_methods_fail_refuted"
   ],
   "note": "Proved: the sum of taxes and of marginal rates. False: the merged bracket table has every rate zero, and accum/tax_money/deduction raise."
  },
  {
   "property": "C45",
   "status": "partial",
   "theorems": [
    "C45_one_claimant",
    "C45_within_maximum_partial",
    "C45_unmarried",
    "C45_exceeds_maximum_refuted",
    "C45_uses_current_income_refuted"
   ],
   "note": "Proved: exactly one claimant, bound when the lower earner's net income is non-negative. False otherwise; also the credit for a past year uses current incomes."
  },
  {
   "property": "C46",
   "status": "proved",
   "theorems": [
    "C46_pension_credit",
    "C46_total_credit"
   ],
   "note": ""
  },
  {
   "property": "C47",
   "status": "partial",
   "theorems": [
    "C47_symmetric_orderly_partial",
    "C47_assignment",
    "C47_symmetric_refuted"
   ],
   "note": "False: remarrying somebody's partner leaves the abandoned person pointing at them. Proved for all orderly histories."
  },
  {
   "property": "C48",
   "status": "partial",
   "theorems": [
    "C48_owners_consistent_partial",
    "C48_assignment_takes_effect",
    "C48_refused_assignment_refuted",
    "C48_stuck_after_refusal_refuted"
   ],
   "note": "False: a refused assignment (TypeError) has already removed the account from its owner. Proved for all histories without refused assignments."
  },
  {
   "property": "C49",
   "status": "partial",
   "theorems": [
    "C49_income",
    "C49_history",
    "C49_readable",
    "C49_rule",
    "C49_clear_cache_refuted"
   ],
   "note": "Proved for all years and raises; clearing the cache in the first year loses the initial income (C49_clear_cache_refuted)."
  },
  {
   "property": "C50",
   "status": "partial",
   "theorems": [
    "C50_allocation_complete_and_bounded_partial",
    "C50_n_age_follows_rule",
    "C50_transition_follows_rule",
    "C50_failures",
    "C50_all_equity_refuted",
    "C50_custom_trimmed",
    "C50_custom_topped_up_refuted"
   ],
   "note": "Every allocation returned is complete and within bounds (for all inputs); but valid configurations raise instead of returning (all-equity case), and topping up equity in the three-class case gives an incomplete allocation."
  },
  {
   "property": "C51",
   "status": "proved",
   "theorems": [
    "C51_weighted_average",
    "C51_between_extremes",
    "C51_shipped_between",
    "C51_rate_function_reads_year"
   ],
   "note": ""
  },
  {
   "property": "C52",
   "status": "partial",
   "theorems": [
    "C52_documented_amounts",
    "C52_answers",
    "C52_never_negative",
    "C52_schedule",
    "C52_missing_values_refuted"
   ],
   "note": "Amounts, non-negativity and the retirement switch are proved without restriction; the documented ValueError for missing values is not what is raised."
  },
  {
   "property": "C53",
   "status": "proved",
   "theorems": [
    "C53_avalanche",
    "C53_snowball",
    "C53_unique"
   ],
   "note": ""
  },
  {
   "property": "C54",
   "status": "partial",
   "theorems": [
    "C54_partition",
    "C54_no_threshold",
    "C54_no_threshold_documented_refuted"
   ],
   "note": "The partition is proved; with no threshold every debt is low-interest although the documentation says high."
  },
  {
   "property": "C55",
   "status": "partial",
   "theorems": [
    "C55_inflows_within_available",
    "C55_inflow_account_limit",
    "C55_inflow_group_limit",
    "C55_outflows_within_available",
    "C55_outflow_account_limit",
    "C55_outflow_group_limit",
    "C55_group_limit_refuted"
   ],
   "note": "Proved for every feasible oracle: within available, sign, account limits in both directions, group limits. False for an account that shares only its maximum and has a minimum of its own."
  },
  {
   "property": "C56",
   "status": "partial",
   "theorems": [
    "C56_exactly_one_kind",
    "C56_accounts_kept_in_order",
    "C56_traversal_sees_every_account",
    "C56_nodes_are_fresh",
    "C56_ordered_subset",
    "C56_subset_refused_iff_not_a_child",
    "C56_weighted_subset",
    "C56_node_of_a_node_refuted"
   ],
   "note": "Proved for every source of nested lists/dicts of accounts; a TransactionNode as source (documented) gives a node without children."
  },
  {
   "property": "C57",
   "status": "proved",
   "theorems": [
    "C57_children_partitioned",
    "C57_swap_keeps_every_child",
    "C57_merge_adds",
    "C57_merge_conserves",
    "C57_memo_and_new_flow_within_capacity"
   ],
   "note": ""
  },
  {
   "property": "C58",
   "status": "proved",
   "theorems": [
    "C58_double_entry",
    "C58_negative_is_reversed",
    "C58_total_conserved",
    "C58_runs_balance"
   ],
   "note": ""
  },
  {
   "property": "C59",
   "status": "proved",
   "theorems": [
    "C59_earliest_affordable",
    "C59_placement",
    "C59_account_known_times"
   ],
   "note": ""
  },
  {
   "property": "C60",
   "status": "partial",
   "theorems": [
    "C60_income_and_living_partial",
    "C60_saving_partial",
    "C60_withdrawal_partial",
    "C60_steady_account_partial",
    "C60_growing_account_refuted",
    "C60_second_call_same_accounts_partial",
    "C60_third_call_refuted"
   ],
   "note": "Second call in the same year: proved for any sub-forecast that acts alike on accounts that are alike and takes money only from steady accounts (mappings of cash flows; Accounts that do not grow), and in particular for income, living expenses, savings (into any accounts) and withdrawals, whose reported withholding is then the year's. False for taking money from Accounts that grow (the times left behind with value 0 give new candidate times, so the second call picks another time) and from the third call on: undo does not clear the record, so the first call's transactions are reversed twice."
  },
  {
   "property": "C61",
   "status": "partial",
   "theorems": [
    "C61_history_refuted",
    "C61_each_year_starts_empty_partial"
   ],
   "note": "False: the history holds the very dict that is cleared. Proved: the record lasts within its year and each year begins empty."
  },
  {
   "property": "C62",
   "status": "partial",
   "theorems": [
    "C62_income_credited_partial",
    "C62_reported_partial",
    "C62_income_lost_refuted"
   ],
   "note": "Proved for everyone with a non-empty payment timing; a payment timing without times (reachable: cash flows netting to zero) loses the income silently."
  },
  {
   "property": "C63",
   "status": "partial",
   "theorems": [
    "C63_living_expenses_removed_partial",
    "C63_paid_when_due",
    "C63_no_income_refuted",
    "C63_no_retirement_date_refuted"
   ],
   "note": "Proved when the household has net income: total, split in proportion to net income, never before the shares fall due, exactly when due if cash always covers them. Fails with ZeroDivisionError when there is no net income, with AttributeError when someone has no retirement date."
  },
  {
   "property": "C64",
   "status": "partial",
   "theorems": [
    "C64_plan_carried_out",
    "C64_total_adds_up_partial",
    "C64_debt_repayment_refuted"
   ],
   "note": "Proved: the plan is carried out, total and retirement part. False: debt_repayment sums the retirement accounts."
  },
  {
   "property": "C65",
   "status": "partial",
   "theorems": [
    "C65_available_gains_partial",
    "C65_withholding_added_refuted",
    "C65_withheld_reported_partial"
   ],
   "note": "False: withheld tax is ADDED to available. _partial gives exactly what available gains."
  },
  {
   "property": "C66",
   "status": "proved",
   "theorems": [
    "C66_adjustment",
    "C66_settled_next_year"
   ],
   "note": ""
  },
  {
   "property": "C67",
   "status": "proved",
   "theorems": [
    "C67_year_start",
    "C67_conserved"
   ],
   "note": ""
  },
  {
   "property": "C68",
   "status": "proved",
   "theorems": [
    "C68_lockstep"
   ],
   "note": ""
  },
  {
   "property": "C69",
   "status": "partial",
   "theorems": [
    "C69_supplied_wins",
    "C69_supplied_string",
    "C69_building_overwrites_nothing",
    "C69_built_object",
    "C69_settings_used",
    "C69_set_param",
    "C69_high_precision",
    "C69_one_scenario",
    "C69_defaults_fit",
    "C69_allocation_strategy_refuted",
    "C69_memo_ignores_arguments_refuted",
    "C69_infinite_string_refuted",
    "C69_new_forecaster_precision",
    "C69_unused_settings_refuted"
   ],
   "note": "Proved: supplied values win, building overwrites nothing, defaults fit, one scenario is shared. False: build_allocation_strategy always raises, the memo ignores explicit arguments, a supplied 'inf' string raises, two documented settings are unused. (That run_forecast leaves its inputs alone is C93.)"
  },
  {
   "property": "C70",
   "status": "partial",
   "theorems": [
    "C70_converts_exactly",
    "C70_lookup",
    "C70_no_numeric_strings",
    "C70_idempotent",
    "C70_nothing_else",
    "C70_total",
    "C70_attribute_stored",
    "C70_number_tokens",
    "C70_attribute_default",
    "C70_no_file",
    "C70_not_an_object",
    "C70_attribute_assigned",
    "C70_read_attribute",
    "C70_equal_keys_lose_entries_refuted",
    "C70_long_integers_refuted"
   ],
   "note": "Proved for all JSON-like trees. False: equal numeric keys collapse; integers above 2^53 written as strings are inexact."
  },
  {
   "property": "C71",
   "status": "partial",
   "theorems": [
    "C71_uncached",
    "C71_whose_value_partial",
    "C71_convert",
    "C71_no_precision",
    "C71_same_values",
    "C71_one_reader",
    "C71_own_function",
    "C71_read_after_write",
    "C71_other_objects_value_refuted"
   ],
   "note": "False: the first object read fixes the cached value for all (C71_other_objects_value_refuted). Proved: whose value is returned in every history."
  },
  {
   "property": "C72",
   "status": "partial",
   "theorems": [
    "C72_no_overdraft_partial",
    "C72_overdraft_refuted"
   ],
   "note": "False when other accounts of the group have transactions; proved when they have none."
  },
  {
   "property": "C73",
   "status": "partial",
   "theorems": [
    "C73_calendar",
    "C73_age_in_year_partial",
    "C73_leap_birth_refuted",
    "C73_age_at_date",
    "C73_leap_date_refuted"
   ],
   "note": "False for people born on 29 February in common years; proved for all others."
  },
  {
   "property": "C74",
   "status": "partial",
   "theorems": [
    "C74_room_caps_contributions_partial",
    "C74_input_room_ignored_refuted",
    "C74_input_initial_year_refuted",
    "C74_constructed_room"
   ],
   "note": "False: an input room is reported but does not cap; an input for the first year makes max_inflows raise TypeError. Proved without inputs."
  },
  {
   "property": "C75",
   "status": "partial",
   "theorems": [
    "C75_gain_input_reported_partial",
    "C75_gain_input_breaks_next_year_refuted",
    "C75_gain_input_discarded_refuted",
    "C75_cost_base_input_overwritten_refuted"
   ],
   "note": "False in three ways (breaks next year, discarded on a new transaction, ACB input overwritten). Proved when no transaction is added."
  },
  {
   "property": "C76",
   "status": "partial",
   "theorems": [
    "C76_federal_plus_provincial",
    "C76_caller_dict_modified_refuted"
   ],
   "note": "The split of arguments is proved; the caller's dict is modified (C76_caller_dict_modified_refuted)."
  },
  {
   "property": "C77",
   "status": "partial",
   "theorems": [
    "C77_registry",
    "C77_construct_and_call",
    "C77_method_selects_itself",
    "C77_shared_key_refuted"
   ],
   "note": "Proved for registries without shared keys; two methods with the same key silently select the other one."
  },
  {
   "property": "C78",
   "status": "proved",
   "theorems": [
    "C78_equity_never_rises_with_age",
    "C78_later_retirement_more_equity"
   ],
   "note": ""
  },
  {
   "property": "C79",
   "status": "partial",
   "theorems": [
    "C79_tree_accounts",
    "C79_high_interest_first",
    "C79_groups_and_order",
    "C79_low_interest_order_partial",
    "C79_paid_off_debt_refuted",
    "C79_unweighted_left_out_refuted"
   ],
   "note": "Proved: accounts in the tree, high-interest first, weights. False: after one low-interest debt is paid off the order is lost; accounts without a weight are left out silently."
  },
  {
   "property": "C80",
   "status": "partial",
   "theorems": [
    "C80_list_filled_in_order_partial",
    "C80_withdrawals_in_order_partial",
    "C80_nested_list_refuted"
   ],
   "note": "Proved for lists of accounts in both directions, for optimal flows; false of nested lists (witness)."
  },
  {
   "property": "C81",
   "status": "partial",
   "theorems": [
    "C81_minimum_withdrawals_refuted"
   ],
   "note": "False for every tree: the first pass, meant to assign minimum withdrawals beyond the shortfall, moves nothing."
  },
  {
   "property": "C82",
   "status": "partial",
   "theorems": [
    "C82_gross_ignores_plan_refuted",
    "C82_withheld_accumulates_refuted"
   ],
   "note": "False: gross_withdrawals does not depend on the plan, tax withheld accumulates over years."
  },
  {
   "property": "C83",
   "status": "partial",
   "theorems": [
    "C83_reported_savings_refuted",
    "C83_reported_savings_partial"
   ],
   "note": "False: savings reported is income after living expenses; _partial states exactly what is reported."
  },
  {
   "property": "C84",
   "status": "partial",
   "theorems": [
    "C84_two_retirement_years_refuted",
    "C84_same_date_partial"
   ],
   "note": "False: Forecast takes the latest retirement, the living-expenses forecast the earliest; proved for a common date."
  },
  {
   "property": "C85",
   "status": "proved",
   "theorems": [
    "C85_year",
    "C85_horizon"
   ],
   "note": ""
  },
  {
   "property": "C86",
   "status": "partial",
   "theorems": [
    "C86_deleted",
    "C86_delete_raises_refuted"
   ],
   "note": "The value is removed, but the delete statement always raises KeyError."
  },
  {
   "property": "C87",
   "status": "partial",
   "theorems": [
    "C87_round_trip",
    "C87_mixed_keys_refuted",
    "C87_high_precision_keys_refuted",
    "C87_high_precision_truncated_refuted",
    "C87_numeric_strings_refuted",
    "C87_other_reader_refuted",
    "C87_keys_ascending"
   ],
   "note": "Proved for all trees without the listed kinds; five refutations (mixed keys, high-precision keys and values, numeric strings, readers as argument)."
  },
  {
   "property": "C88",
   "status": "partial",
   "theorems": [
    "C88_failed_write_destroys_refuted",
    "C88_read_forgets",
    "C88_like_a_new_reader",
    "C88_stays_usable_partial",
    "C88_failed_read_forgets",
    "C88_unusable_forever_refuted"
   ],
   "note": "False: a failed write empties the file; reading a bare scalar makes the reader unusable. Proved: all other outcomes leave it usable."
  },
  {
   "property": "C89",
   "status": "partial",
   "theorems": [
    "C89_payments_follow_strategy",
    "C89_payments_bounded",
    "C89_nothing_available",
    "C89_given_total",
    "C89_single_amount_refuted",
    "C89_assign_min_refuted"
   ],
   "note": "Proved for every set of debts, both strategies, any optimal flow: order, bounds, nothing available. False: a single amount (documented) raises AttributeError; assign_min=False has no effect."
  },
  {
   "property": "C90",
   "status": "partial",
   "theorems": [
    "C90_custom_methods_refuted"
   ],
   "note": "False: LimitTuple(transaction_methods) puts the whole tuple into one field, so no traversal with custom methods (of either kind) ever succeeds; proved for every tree, flow and argument."
  },
  {
   "property": "C91",
   "status": "partial",
   "theorems": [
    "C91_age_round_trip",
    "C91_age_counts_birthdays",
    "C91_never_before_birth_partial",
    "C91_refused",
    "C91_birth_date_refuted",
    "C91_none_refuted",
    "C91_new_person",
    "C91_optional_refuted"
   ],
   "note": "Proved: round trip, counting of birthdays, refusal, and the invariant for histories that do not reassign birth_date. False: reassigning birth_date is unchecked; assigning None raises NotImplementedError but has already erased the date (retirement_age then reads 0); a person cannot be made without a retirement date although it is documented as optional."
  },
  {
   "property": "C92",
   "status": "partial",
   "theorems": [
    "C92_constructed",
    "C92_assigned_partial",
    "C92_constant_rate",
    "C92_none_refuted"
   ],
   "note": "Proved for every kind of rate given at construction and every kind except None assigned later. False for None assigned later: every later year raises TypeError."
  },
  {
   "property": "C93",
   "status": "partial",
   "theorems": [
    "C93_copies_correspond",
    "C93_copies_are_new",
    "C93_copying_terminates",
    "C93_inputs_untouched_partial",
    "C93_repeatable",
    "C93_shared_parameters_refuted"
   ],
   "note": "Proved for every finite object graph: correspondence, newness, termination, and, when the parameters the forecaster holds itself (scenario, strategies, tax treatment) lead to no mutable object of the arguments, that the arguments are untouched and the run repeatable. False without that proviso: those parameters are used uncopied, so a tax treatment shared with a person is mutated."
  },
  {
   "property": "C94",
   "status": "partial",
   "theorems": [
    "C94_behaves_as_mapping_partial",
    "C94_refused",
    "C94_text_assignment_refuted",
    "C94_reading_records_refuted",
    "C94_text_reading_refuted"
   ],
   "note": "Proved for every history with numeric times in [0,1] in which only recorded times are read. False otherwise: account['end'] = v adds instead of replacing; reading a missing time (even outside the year) records a zero there; reading account['start'] records a text key and breaks iteration. (account.get always raises TypeError: not modelled.)"
  },
  {
   "property": "C95",
   "status": "partial",
   "theorems": [
    "C95_inflow_node_limit",
    "C95_inflow_node_maximum",
    "C95_outflow_node_limit",
    "C95_node_limit_refuted",
    "C95_plain_trees_distinct"
   ],
   "note": "Proved for inflows (node with both limits; node with only a maximum when the accounts' minimums fit in it) and for withdrawals. Refuted when the minimums below a node exceed its maximum: the second pass uses the absolute value of the negative remainder and assigns it again (C95_node_limit_refuted). Trees of lists/dicts of accounts always meet the one-occurrence hypothesis (C95_plain_trees_distinct)."
  },
  {
   "property": "C96",
   "status": "partial",
   "theorems": [
    "C96_no_minimums",
    "C96_unlimited_inflows",
    "C96_max_outflow_empties",
    "C96_max_outflow_agrees",
    "C96_drained_once",
    "C96_max_outflow_later_refuted",
    "C96_max_outflow_annual_limit_refuted",
    "C96_growth_is_taxable"
   ],
   "note": "Proved except that max_outflow(when), unlike max_outflows, forgets withdrawals scheduled later in the year and withdrawals already counted against an annual limit (two refutations)."
  },
  {
   "property": "C97",
   "status": "partial",
   "theorems": [
    "C97_reported",
    "C97_next_year_refuted",
    "C97_account_sign_refuted"
   ],
   "note": "Proved for mappings (first call and a repeated call). Refuted: the figure is not reset by next_year, and for an Account it has the sign of an outflow (never positive)."
  },
  {
   "property": "C98",
   "status": "partial",
   "theorems": [
    "C98_deposits_shared_partial",
    "C98_withdrawals_shared_partial",
    "C98_limited_withdrawals_refuted",
    "C98_minimum_refuted",
    "C98_full_member_refuted",
    "C98_left_over_refuted"
   ],
   "note": "Proved for deposits (also into a group with its own maximum: each member gets its share of the lesser of the amount and that maximum) and for withdrawals from a group without limits of its own, any number of members, when no member has a minimum inflow, every share fits the member's limit and is a whole number of units of precision (every optimal flow then is the proportional one). Refuted when a member has a minimum (70/30 instead of 60/40), when a member is full (it may get nothing), for the leftover (44 of 90 unused while a member has room) and for withdrawals from a group with its own (negative) maximum outflow (10/0 instead of 5/5). Groups whose members are themselves groups or lists are not covered."
  },
  {
   "property": "C99",
   "status": "proved",
   "theorems": [
    "C99_built_as_asked",
    "C99_others_untouched",
    "C99_ambiguous_rejected",
    "C99_spellings_agree"
   ],
   "note": "Full, for the max_inflow link (the other three links are taken not to be given)."
  },
  {
   "property": "C100",
   "status": "partial",
   "theorems": [
    "C100_early_errors_partial",
    "C100_damage_is_local_partial",
    "C100_late_conversion_refuted",
    "C100_bad_frequency_refuted",
    "C100_bad_link_refuted"
   ],
   "note": "Proved for contradictory arguments and unacceptable owners; in general the damage is confined to the owner's accounts and the group asked for. Refuted for errors found late: an RRSP with a conversion year that is too late, a bad compounding frequency and a bad link all leave a half-made account among the owner's accounts; the first also leaves it in the group and has replaced the group's room."
  },
  {
   "property": "C101",
   "status": "partial",
   "theorems": [
    "C101_everyone_counts_partial",
    "C101_new_contributor_refuted",
    "C101_unregistered_contributor_refuted",
    "C101_shared_link_refuted"
   ],
   "note": "Proved for all histories that do not assign contributor. Refuted when contributor is assigned: the account is not added to the new contributor's group nor removed from the old one's, has no room at all if the new contributor has no account of the class, and accounts built from one AccountLink object change together."
  },
  {
   "property": "C102",
   "status": "partial",
   "theorems": [
    "C102_tax_every_year",
    "C102_monotone_and_bounded",
    "C102_only_bc_refuted"
   ],
   "note": "Proved for BC and for income given as an amount of money. Every other province is refused (KeyError): the shipped tables have no other entry. (The shipped BC brackets are a copy of the federal ones.)"
  },
  {
   "property": "C103",
   "status": "proved",
   "theorems": [
    "C103_minimum_share",
    "C103_never_exhausted"
   ],
   "note": "Full, with decimal literals read exactly."
  },
  {
   "property": "C104",
   "status": "partial",
   "theorems": [
    "C104_general_defaults",
    "C104_registered_accounts",
    "C104_taxable_never_drawn_refuted",
    "C104_others_left_out_refuted",
    "C104_default_allocation_constant_refuted",
    "C104_default_tax_free"
   ],
   "note": "Proved for the general settings and for RRSPs and TFSAs under the Canadian ones. Refuted: the Canadian withdrawal weights name a class SavingsAccount that does not exist, so taxable accounts are filled but never drawn on; plain accounts and low-interest debts are in neither strategy; the default minimum and maximum equity are both 30%, so the 'n-age' default does not depend on age."
  },
  {
   "property": "C105",
   "status": "partial",
   "theorems": [
    "C105_taxable_income",
    "C105_deductions_credits_partial",
    "C105_recorded",
    "C105_stale_deduction_refuted"
   ],
   "note": "Proved for taxable income. Deductions and credits are cached at the first read of the year: proved to be the accounts' totals at that read; refuted as current totals - after one read, later contributions in the year are not deducted, and the stale figure is what the history keeps."
  },
  {
   "property": "C106",
   "status": "proved",
   "theorems": [
    "C106_leading_item_first",
    "C106_nothing_left_over",
    "C106_withdrawals_leading_first",
    "C106_no_need_left_over",
    "C106_high_interest_debts_first"
   ],
   "note": "Proved for every optimal flow: a path-exchange argument (any money reaching a later item could be re-routed along the leading path at strictly lower cost), with a sum-of-weights bound on the leading item and the strictly larger weights given to later items. Lists after the first item need not come before their successors: see C80 (refuted)."
  },
  {
   "property": "C107",
   "status": "proved",
   "theorems": [
    "C107_reported",
    "C107_reconciled"
   ],
   "note": "The account balances behind `principal` are an arbitrary function of the state here (AccountModel models them). That the reported withdrawals are the shortfall before withdrawing, not the amount withdrawn, is also shown here for every year (see C82)."
  },
  {
   "property": "C108",
   "status": "partial",
   "theorems": [
    "C108_books",
    "C108_reads_harmless_partial",
    "C108_years_of_account",
    "C108_conservation_partial",
    "C108_rate_assigned_partial",
    "C108_rate_ignored_refuted",
    "C108_reading_matters_refuted"
   ],
   "note": "Proved: the account shows exactly what a simple book says (last year's balance and transactions; this year's settled balance and rate) for every operation sequence, recording order and inputs; without changes of rate or compounding reads are harmless, the figures are those of the account of C19/C20/C96 and growth equals returns at a constant rate. The full claim is false: the rate and balance are cached when first read, so a rate assigned after this year's rate was read is ignored until next year, and changing the compounding (or rate) after New Year but before the balance is read rewrites last year's growth (2250 instead of 2000), so reading changes later figures and growth can differ from the returns recorded."
  },
  {
   "property": "C109",
   "status": "partial",
   "theorems": [
    "C109_net_worth_partial",
    "C109_no_withholding_partial",
    "C109_withholding_creates_money_refuted"
   ],
   "note": "Proved over any horizon with accounts at constant rates (varying rates: refuted in C19): exact when no account withholds tax, otherwise with the exact excess. False as stated: tax withheld by accounts is added to cash instead of deducted, and then again counted as tax paid, so a 1000 withdrawal with 300 withheld raises net worth by 600."
  },
  {
   "property": "C110",
   "status": "partial",
   "theorems": [
    "C110_not_before",
    "C110_steady_account_partial",
    "C110_taken",
    "C110_steady_not_overdrawn_partial",
    "C110_growing_account_partial",
    "C110_taken_too_early_refuted",
    "C110_overdrawn_later_refuted",
    "C110_growth_overlooked_refuted",
    "C110_empty_account_error_refuted"
   ],
   "note": "Never earlier, recorded once, and with the right effect on the balance: all accounts. Earliest affordable time and no overdraft: accounts without growth, when no error is raised. Growing accounts: only if nothing is paid in later, and then only that the amount is held from the chosen time on. False in general, for every positive rate: with a later deposit money is taken before the account holds it (the interpolated time is computed backwards from the deposit); a planned later withdrawal can be left uncovered; growth after the last transaction is overlooked; an empty or overdrawn account with a later deposit raises ZeroDivisionError/ValueError."
  },
  {
   "property": "C111",
   "status": "partial",
   "theorems": [
    "C111_books",
    "C111_order_irrelevant",
    "C111_reads_harmless_partial",
    "C111_net_partial",
    "C111_first_year_net_refuted",
    "C111_raise_assigned_partial",
    "C111_raise_ignored_refuted"
   ],
   "note": "Proved: the exact figures after every sequence of operations, for every iteration order (books of what is settled so far this year). That reading is harmless, that net income is gross less tax withheld and that a newly assigned raise rate counts hold if changes are made before anything is read in the year (net income: in a later year than the first). False in general: net income is worked out when the person is made, so a gross income assigned later that year leaves it as it was; a raise rate assigned after this year's raise was read is ignored until the next year."
  },
  {
   "property": "C112",
   "status": "partial",
   "theorems": [
    "C112_agrees_partial",
    "C112_timing_partial",
    "C112_timing_floats_refuted",
    "C112_float_times_refuted",
    "C112_whole_weights_refuted",
    "C112_time_to_balance_refuted"
   ],
   "note": "Proved: over every history, with whole and high-precision numbers in any mixture, add_transaction, next_year, balance_at_time, returns, max_inflows and max_outflows of a high-precision account give the same errors or the same values as the account without types (AccountModel), in the high-precision type; the same without high_precision; and Timing gives high-precision times and weights for a moment left out, 'start', 'end' or a high-precision number. Refuted for the rest: Timing('BW') and Timing(0) give float times even with high_precision (timing.py:79-83, 91; forecast/base.py:250 uses the latter); a payment at a float time is accepted and then every figure of the account raises TypeError; whole numbers as weights raise TypeError (int/int is a float, base.py:545-560); time_to_balance raises TypeError whenever the account grows, because math.log gives a float (util.py:119-123)."
  },
  {
   "property": "C113",
   "status": "proved",
   "theorems": [
    "C113_monotone",
    "C113_households",
    "C113_inflated",
    "C113_accuracy",
    "C113_totals",
    "C113_number_types"
   ],
   "note": "For every rounding function (binary64 and 28-digit Decimals proved to be instances, with Flocq's definitions). The other tax models compute exactly; this one removes that simplification for brackets, people and jurisdictions. C113_totals: households' and jurisdictions' totals are the sums of everyone's tax within the rounding error of the additions. No overflow, NaN; the error bound is for roundings with a relative error bound (no underflow) and amounts without deductions or credits."
  },
  {
   "property": "C114",
   "status": "proved",
   "theorems": [
    "C114_monotone",
    "C114_accuracy",
    "C114_accuracy_floats"
   ],
   "note": "For every rounding function; binary64 and 28-digit Decimals are instances (Flocq's definitions). The bounds need relative accuracy: for floats C114_accuracy_floats, with non-negative inflation and factors that do not overflow."
  },
  {
   "property": "C115",
   "status": "proved",
   "theorems": [
    "C115_timing",
    "C115_time_series"
   ],
   "note": "For numbers with gradual or abrupt underflow below a smallest normal number m (floats: 2^-1022; Decimals: taken as 0). Codes and dict arguments of Timing are in C01-C06 (exact)."
  },
  {
   "property": "C116",
   "status": "proved",
   "theorems": [
    "C116_year_end",
    "C116_transactions",
    "C116_no_losses",
    "C116_rising",
    "C116_target",
    "C116_emptied",
    "C116_limits"
   ],
   "note": "The power function (C library's or Decimal's) is an arbitrary function with the stated bounds; C116_rising also assumes that it keeps the order of exponents. C116_target, C116_emptied and C116_limits assume relative accuracy throughout (no underflow). C116_limits states the room with exact sums of the deposits and withdrawals made."
  },
  {
   "property": "C117",
   "status": "partial",
   "theorems": [
    "C117_mapping",
    "C117_keys_refuted",
    "C117_inherited_refuted",
    "C117_collision_refuted",
    "C117_numbers",
    "C117_hashable"
   ],
   "note": "Reading, writing, clearing and iterating hold (C117_mapping, for integers that are no object's id). Refuted: keys() raises TypeError for two or more keys of which one is not a number (C117_keys_refuted); in, get and del raise TypeError for unhashable keys and items() gives ids (C117_inherited_refuted); an integer equal to the id of a dict in use is taken for it (C117_collision_refuted)."
  },
  {
   "property": "C118",
   "status": "partial",
   "theorems": [
    "C118_agrees_partial",
    "C118_sum_over_brackets",
    "C118_multi_partial",
    "C118_float_inflation_refuted",
    "C118_canada_zero_refuted",
    "C118_settlement_partial",
    "C118_no_adjustment",
    "C118_settlement_refuted"
   ],
   "note": "Holds for whole and high-precision numbers throughout (C118_agrees_partial, C118_multi_partial) and for timings given as Timing objects in high precision (C118_settlement_partial). Refuted: inflation in floats, or as a table of whole numbers, makes every tax for a year not listed a TypeError (C118_float_inflation_refuted); Canadian jurisdictions do not pass high_precision on, so no tax is the int 0 (C118_canada_zero_refuted); refund and payment timings set as 'start' (the default) or a number have float weights, so every settlement in high precision is a TypeError (C118_settlement_refuted). C118_sum_over_brackets ties the typed tax to the sum over brackets."
  },
  {
   "property": "C119",
   "status": "partial",
   "theorems": [
    "C119_inflation_partial",
    "C119_whole_rates_refuted",
    "C119_default_inflation_refuted",
    "C119_income_partial",
    "C119_raise_table_refuted",
    "C119_rrsp_partial",
    "C119_rrsp_float_inflation_refuted",
    "C119_whole_balance_refuted",
    "C119_tfsa"
   ],
   "note": "Holds for rates all of the high-precision type (C119_inflation_partial), raises given as one number or fitting types (C119_income_partial), RRSPs with fitting inflation and a balance of the high-precision type (C119_rrsp_partial); TFSAs work with inflation of any type (C119_tfsa). Refuted: Scenario never converts its rates, so whole-number rates (the default 0) give floats looking back (C119_whole_rates_refuted) and no tax can be computed in high precision before the tables (C119_default_inflation_refuted); raises given by year are not converted (C119_raise_table_refuted); float rates make RRSPs impossible to construct in unlisted years (C119_rrsp_float_inflation_refuted); a whole balance makes the withholding tax of an early RRIF a TypeError (C119_whole_balance_refuted)."
  },
  {
   "property": "C120",
   "status": "partial",
   "theorems": [
    "C120_whose_amounts_partial",
    "C120_same_amounts_partial",
    "C120_retirement_refuted",
    "C120_float_inflation_refuted",
    "C120_shares_partial",
    "C120_whole_incomes_refuted",
    "C120_whose_bounds_partial",
    "C120_bounds_checked",
    "C120_same_bounds_partial",
    "C120_other_bounds_refuted",
    "C120_float_returns_refuted"
   ],
   "note": "Whatever was built and called before, a strategy gives what the untyped model does, with amounts that were given to some called strategy of the class (C120_whose_amounts_partial, C120_whose_bounds_partial), so with its own when there is one strategy or all agree, and always without high_precision (C120_same_amounts_partial, C120_same_bounds_partial); shares are exact for incomes in high precision (C120_shares_partial). Refuted: the cached attributes belong to the class, so a schedule spends the working years' amount in retirement (C120_retirement_refuted) and an allocation keeps to another strategy's bounds (C120_other_bounds_refuted); float inflation or returns raise TypeError (C120_float_inflation_refuted, C120_float_returns_refuted), and so do incomes in whole numbers (C120_whole_incomes_refuted)."
  },
  {
   "property": "C121",
   "status": "partial",
   "theorems": [
    "C121_declaration",
    "C121_inherited",
    "C121_only_properties",
    "C121_inputs_win",
    "C121_next_year",
    "C121_clear_cache",
    "C121_replaced_refuted",
    "C121_name_refuted"
   ],
   "note": "Proved for all sequences of decorators and classes (C121_declaration, C121_inherited, C121_only_properties, C121_inputs_win, C121_next_year, C121_clear_cache) for properties not themselves called getter, setter or deleter; assigning may reorder the years in a history. Refuted at the edges: a subclass that replaces a recorded property by something else keeps a history attribute that raises AttributeError (C121_replaced_refuted), and a property called 'setter' becomes 'getter' when given a setter (C121_name_refuted)."
  },
  {
   "property": "C122",
   "status": "partial",
   "theorems": [
    "C122_household_is_sum",
    "C122_person_is_sum",
    "C122_spouses_is_sum",
    "C122_all_or_nothing",
    "C122_tax_people_is_sum",
    "C122_tax_person_is_sum_partial",
    "C122_tax_person_needs_amounts_refuted",
    "C122_lists_refuted",
    "C122_shared_threshold_partial",
    "C122_accumulated_partial",
    "C122_canadian_household",
    "C122_canadian_arguments",
    "C122_canadian_bounds",
    "C122_combined_deduction_refuted",
    "C122_combined_credit_refuted"
   ],
   "note": "Calls: proved in full for sets of people and for single people (C122_household_is_sum, C122_person_is_sum, C122_spouses_is_sum, C122_all_or_nothing, C122_canadian_arguments, C122_canadian_household, C122_canadian_bounds). Refuted: tax_person of TaxMulti fails unless an amount is given for every jurisdiction (C122_tax_person_needs_amounts_refuted); lists of people cannot be taxed; tax_brackets(year, bracket) and accum(year, bracket) answer only for thresholds shared by all jurisdictions (_partial); personal_deduction, credit and credit_rate are the first jurisdiction's alone. A person's own deductions and credits count twice, as in C42: the formula of C122_canadian_household says so."
  },
  {
   "property": "C123",
   "status": "partial",
   "theorems": [
    "C123_every_year",
    "C123_net_worth",
    "C123_saving_strategy_withdraws_refuted"
   ],
   "note": "Proved: the bounds for every year of every run (C123_every_year) and the books where nothing is withheld (C123_net_worth; withholding: see C65, C109). False: a shortfall is drawn by the saving forecast, which is called first and hands the negative amount to the saving strategy, so withdrawals follow the saving strategy's priorities and are not reported (C123_saving_strategy_withdraws_refuted)."
  },
  {
   "property": "C124",
   "status": "partial",
   "theorems": [
    "C124_plan",
    "C124_short_only_when_empty_partial",
    "C124_money_left_only_when_full_partial",
    "C124_shared_place_refuted",
    "C124_shared_place_withdrawals_refuted"
   ],
   "note": "Proved for every year of every run for accounts that do not share their place in the priorities: high-interest debts; with 'Ordered' strategies accounts alone in their class, and low-interest debts that form a class of their own (no shared group limits, accounts that take and give exactly what they are asked within their limits). False for accounts that share their place: when saving, 44 of 90 can stay behind although an account has room for 24 more (C124_shared_place_refuted); when withdrawing, the rebalancing of a weighted group rounds its shares down and cannot make up for it, so a few cents an account holds can stay unused although the year ends short (C124_shared_place_withdrawals_refuted)."
  },
  {
   "property": "C125",
   "status": "proved",
   "theorems": [
    "C125_tax_of_the_year"
   ],
   "note": "Joins C107, C66, C68 and C122: the year that reaches the tax treatment is shown to be the forecast's. As in C122 the formula counts a person's own deductions and credits twice (C42 says that the code does). The shipped province is British Columbia (C102). What a person's record shows is any function of the accounts' transactions and the rest of the household (C105 says what)."
  },
  {
   "property": "C126",
   "status": "partial",
   "theorems": [
    "C126_cash_flows_partial",
    "C126_accounts_partial",
    "C126_default_timing",
    "C126_add_transactions_partial",
    "C126_undone",
    "C126_total_available",
    "C126_floats_refuted",
    "C126_high_refuted",
    "C126_times_refuted"
   ],
   "note": "Proved for amounts of a fitting type (no floats with high_precision, nothing else without) and weights of a Timing object that are high-precision numbers; with accounts, times must fit too. Refuted otherwise: amounts are not converted, so a float with high_precision, or a Decimal without it, is a TypeError whatever the accounts hold (C126_floats_refuted, C126_high_refuted); the times made from a frequency code or from an ordinary number are floats even with high_precision (C126_times_refuted), which accounts then do not accept (C112). Timing arguments that are dicts and no Timing objects are not modelled with types."
  }
 ]
}