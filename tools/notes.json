{
 "C12": {
  "note": "False of the code: C12_inflation_adjustments_refuted (2% inflation: the factor for later years is < 1). What holds: the method returns the reciprocal of inflation_adjust(year, base) for every year covered (_partial)."
 },
 "C19": {
  "note": "False when the rate differs between two years: next_year applies the NEW year's rate to the old year's money (C19_conservation_refuted). Proved for a constant rate, for one year and for any number of years and transactions (_partial)."
 },
 "C24": {
  "note": "False when transactions occur after `when` or when the answer lies before `when` (two refutations with witnesses). Proved: zero-growth cases, termination, and the exact equation that the returned time does satisfy (_partial)."
 },
 "C25": {
  "note": "False only for an initial-year balance given through `inputs`, which bypasses the sign correction (C25_positive_input_refuted). All other parts are proved without restriction."
 },
 "C27": {
  "note": "False: the outflow setters write the inflow limit (C27_outflow_setters_refuted, for every account). The inflow setters are proved correct."
 },
 "C28": {
  "note": "False for simultaneous use: computing max_inflows for two accounts of a group first and recording both exceeds the limit (C28_simultaneous_flows_refuted). Proved: each single request is within what the group has left, and so is any sequence of request-then-record (C28_sequence_of_contributions). Shared minimums: min_inflows is exactly, and min_outflows at most (unless the account runs dry, exactly) what the group still lacks (C28_min_inflows_partial, C28_min_outflows_partial). While no limit has been set for a group, every flow computation of its members raises TypeError (C28_no_limit_fails)."
 },
 "C30": {
  "note": "False: contributions made to any account of the group but the first advanced are forgotten, and the result depends on the order of advancing (two refutations). Proved when only the first-advanced account was used (_partial)."
 },
 "C31": {
  "note": "False for contributors born on 29 February (person.age is one too low in common years). Proved for all others (_partial), as are the indexed maximum and deductibility/taxability without restriction."
 },
 "C32": {
  "note": "False for owners born on 29 February. Proved for all others after any sequence of assignments; rejection of late years is proved without restriction."
 },
 "C34": {
  "note": "False after conversion to RRIF: the mandatory minimum is added to, not exempted from, the amount on which tax is withheld. Proved before conversion (_partial)."
 },
 "C35": {
  "note": "False in three ways: indexation is inverted, a 17-year-old accrues, inputs for later years only make construction fail. Proved: what is accrued in each case, the initial room as a sum, agreement of accounts opened in different years away from age 16."
 },
 "C37": {
  "note": "False: deleting a transaction (or assigning through the mapping) after the gain was read leaves the cached gain. Proved for histories that only add transactions."
 },
 "C40": {
  "note": "Proved: inflated brackets, rates kept, accumulated table, scaling. False when accum(year) is the first query for an unlisted year: it inflates the rates (C40_accum_first_refuted)."
 },
 "C41": {
  "note": "False when accum is queried first, and with inconsistent inflation callables. Proved for consistent inflation and any sequence of other queries."
 },
 "C42": {
  "note": "False: a person's own deductions and credits are counted twice (C42_counted_twice_refuted gives the formula charged). Proved for people with none of their own."
 },
 "C43": {
  "note": "Proved for sets of people with any spouse structure and iteration order; lists, which the documentation allows, always raise (C43_lists_refuted)."
 },
 "C44": {
  "note": "Proved: the sum of taxes and of marginal rates. False: the merged bracket table has every rate zero, and accum/tax_money/deduction raise."
 },
 "C45": {
  "note": "Proved: exactly one claimant, bound when the lower earner's net income is non-negative. False otherwise; also the credit for a past year uses current incomes."
 },
 "C47": {
  "note": "False: remarrying somebody's partner leaves the abandoned person pointing at them. Proved for all orderly histories."
 },
 "C48": {
  "note": "False: a refused assignment (TypeError) has already removed the account from its owner. Proved for all histories without refused assignments."
 },
 "C49": {
  "note": "Proved for all years and raises; clearing the cache in the first year loses the initial income (C49_clear_cache_refuted)."
 },
 "C50": {
  "note": "Every allocation returned is complete and within bounds (for all inputs); but valid configurations raise instead of returning (all-equity case), and topping up equity in the three-class case gives an incomplete allocation."
 },
 "C52": {
  "note": "Amounts, non-negativity and the retirement switch are proved without restriction; the documented ValueError for missing values is not what is raised."
 },
 "C54": {
  "note": "The partition is proved; with no threshold every debt is low-interest although the documentation says high."
 },
 "C55": {
  "note": "Proved for every feasible oracle: within available, sign, account limits in both directions, group limits. False for an account that shares only its maximum and has a minimum of its own."
 },
 "C56": {
  "note": "Proved for every source of nested lists/dicts of accounts; a TransactionNode as source (documented) gives a node without children."
 },
 "C60": {
  "note": "Second call in the same year: proved for any sub-forecast that acts alike on accounts that are alike and takes money only from steady accounts (mappings of cash flows; Accounts that do not grow), and in particular for income, living expenses, savings (into any accounts) and withdrawals, whose reported withholding is then the year's. False for taking money from Accounts that grow (the times left behind with value 0 give new candidate times, so the second call picks another time) and from the third call on: undo does not clear the record, so the first call's transactions are reversed twice."
 },
 "C61": {
  "note": "False: the history holds the very dict that is cleared. Proved: the record lasts within its year and each year begins empty."
 },
 "C62": {
  "note": "Proved for everyone with a non-empty payment timing; a payment timing without times (reachable: cash flows netting to zero) loses the income silently."
 },
 "C63": {
  "note": "Proved when the household has net income: total, split in proportion to net income, never before the shares fall due, exactly when due if cash always covers them. Fails with ZeroDivisionError when there is no net income, with AttributeError when someone has no retirement date."
 },
 "C64": {
  "note": "Proved: the plan is carried out, total and retirement part. False: debt_repayment sums the retirement accounts."
 },
 "C65": {
  "note": "False: withheld tax is ADDED to available. _partial gives exactly what available gains."
 },
 "C69": {
  "note": "Proved: supplied values win, building overwrites nothing, defaults fit, one scenario is shared. False: build_allocation_strategy always raises, the memo ignores explicit arguments, a supplied 'inf' string raises, two documented settings are unused. (That run_forecast leaves its inputs alone is C93.)"
 },
 "C70": {
  "note": "Proved for all JSON-like trees. False: equal numeric keys collapse; integers above 2^53 written as strings are inexact."
 },
 "C71": {
  "note": "False: the first object read fixes the cached value for all (C71_other_objects_value_refuted). Proved: whose value is returned in every history."
 },
 "C72": {
  "note": "False when other accounts of the group have transactions; proved when they have none."
 },
 "C73": {
  "note": "False for people born on 29 February in common years; proved for all others."
 },
 "C74": {
  "note": "False: an input room is reported but does not cap; an input for the first year makes max_inflows raise TypeError. Proved without inputs."
 },
 "C75": {
  "note": "False in three ways (breaks next year, discarded on a new transaction, ACB input overwritten). Proved when no transaction is added."
 },
 "C76": {
  "note": "The split of arguments is proved; the caller's dict is modified (C76_caller_dict_modified_refuted)."
 },
 "C77": {
  "note": "Proved for registries without shared keys; two methods with the same key silently select the other one."
 },
 "C79": {
  "note": "Proved: accounts in the tree, high-interest first, weights. False: after one low-interest debt is paid off the order is lost; accounts without a weight are left out silently."
 },
 "C80": {
  "note": "Proved for lists of accounts in both directions, for optimal flows; false of nested lists (witness)."
 },
 "C81": {
  "note": "False for every tree: the first pass, meant to assign minimum withdrawals beyond the shortfall, moves nothing."
 },
 "C82": {
  "note": "False: gross_withdrawals does not depend on the plan, tax withheld accumulates over years."
 },
 "C83": {
  "note": "False: savings reported is income after living expenses; _partial states exactly what is reported."
 },
 "C84": {
  "note": "False: Forecast takes the latest retirement, the living-expenses forecast the earliest; proved for a common date."
 },
 "C86": {
  "note": "The value is removed, but the delete statement always raises KeyError."
 },
 "C87": {
  "note": "Proved for all trees without the listed kinds; five refutations (mixed keys, high-precision keys and values, numeric strings, readers as argument)."
 },
 "C88": {
  "note": "False: a failed write empties the file; reading a bare scalar makes the reader unusable. Proved: all other outcomes leave it usable."
 },
 "C89": {
  "note": "Proved for every set of debts, both strategies, any optimal flow: order, bounds, nothing available. False: a single amount (documented) raises AttributeError; assign_min=False has no effect."
 },
 "C90": {
  "note": "False: LimitTuple(transaction_methods) puts the whole tuple into one field, so no traversal with custom methods (of either kind) ever succeeds; proved for every tree, flow and argument."
 },
 "C91": {
  "note": "Proved: round trip, counting of birthdays, refusal, and the invariant for histories that do not reassign birth_date. False: reassigning birth_date is unchecked; assigning None raises NotImplementedError but has already erased the date (retirement_age then reads 0); a person cannot be made without a retirement date although it is documented as optional."
 },
 "C92": {
  "note": "Proved for every kind of rate given at construction and every kind except None assigned later. False for None assigned later: every later year raises TypeError."
 },
 "C93": {
  "note": "Proved for every finite object graph: correspondence, newness, termination, and, when the parameters the forecaster holds itself (scenario, strategies, tax treatment) lead to no mutable object of the arguments, that the arguments are untouched and the run repeatable. False without that proviso: those parameters are used uncopied, so a tax treatment shared with a person is mutated."
 },
 "C94": {
  "note": "Proved for every history with numeric times in [0,1] in which only recorded times are read. False otherwise: account['end'] = v adds instead of replacing; reading a missing time (even outside the year) records a zero there; reading account['start'] records a text key and breaks iteration. (account.get always raises TypeError: not modelled.)"
 },
 "C95": {
  "note": "Proved for inflows (node with both limits; node with only a maximum when the accounts' minimums fit in it) and for withdrawals. Refuted when the minimums below a node exceed its maximum: the second pass uses the absolute value of the negative remainder and assigns it again (C95_node_limit_refuted). Trees of lists/dicts of accounts always meet the one-occurrence hypothesis (C95_plain_trees_distinct)."
 },
 "C96": {
  "note": "Proved except that max_outflow(when), unlike max_outflows, forgets withdrawals scheduled later in the year and withdrawals already counted against an annual limit (two refutations)."
 },
 "C97": {
  "note": "Proved for mappings (first call and a repeated call). Refuted: the figure is not reset by next_year, and for an Account it has the sign of an outflow (never positive)."
 },
 "C98": {
  "note": "Proved for deposits (also into a group with its own maximum: each member gets its share of the lesser of the amount and that maximum) and for withdrawals from a group without limits of its own, any number of members, when no member has a minimum inflow, every share fits the member's limit and is a whole number of units of precision (every optimal flow then is the proportional one). Refuted when a member has a minimum (70/30 instead of 60/40), when a member is full (it may get nothing), for the leftover (44 of 90 unused while a member has room) and for withdrawals from a group with its own (negative) maximum outflow (10/0 instead of 5/5). Groups whose members are themselves groups or lists are not covered."
 },
 "C99": {
  "note": "Full, for the max_inflow link (the other three links are taken not to be given)."
 },
 "C100": {
  "note": "Proved for contradictory arguments and unacceptable owners; in general the damage is confined to the owner's accounts and the group asked for. Refuted for errors found late: an RRSP with a conversion year that is too late, a bad compounding frequency and a bad link all leave a half-made account among the owner's accounts; the first also leaves it in the group and has replaced the group's room."
 },
 "C101": {
  "note": "Proved for all histories that do not assign contributor. Refuted when contributor is assigned: the account is not added to the new contributor's group nor removed from the old one's, has no room at all if the new contributor has no account of the class, and accounts built from one AccountLink object change together."
 },
 "C102": {
  "note": "Proved for BC and for income given as an amount of money. Every other province is refused (KeyError): the shipped tables have no other entry. (The shipped BC brackets are a copy of the federal ones.)"
 },
 "C103": {
  "note": "Full, with decimal literals read exactly."
 },
 "C104": {
  "note": "Proved for the general settings and for RRSPs and TFSAs under the Canadian ones. Refuted: the Canadian withdrawal weights name a class SavingsAccount that does not exist, so taxable accounts are filled but never drawn on; plain accounts and low-interest debts are in neither strategy; the default minimum and maximum equity are both 30%, so the 'n-age' default does not depend on age."
 },
 "C105": {
  "note": "Proved for taxable income. Deductions and credits are cached at the first read of the year: proved to be the accounts' totals at that read; refuted as current totals - after one read, later contributions in the year are not deducted, and the stale figure is what the history keeps."
 },
 "C106": {
  "note": "Proved for every optimal flow: a path-exchange argument (any money reaching a later item could be re-routed along the leading path at strictly lower cost), with a sum-of-weights bound on the leading item and the strictly larger weights given to later items. Lists after the first item need not come before their successors: see C80 (refuted)."
 },
 "C107": {
  "note": "The account balances behind `principal` are an arbitrary function of the state here (AccountModel models them). That the reported withdrawals are the shortfall before withdrawing, not the amount withdrawn, is also shown here for every year (see C82)."
 },
 "C108": {
  "note": "Proved: the account shows exactly what a simple book says (last year's balance and transactions; this year's settled balance and rate) for every operation sequence, recording order and inputs; without changes of rate or compounding reads are harmless, the figures are those of the account of C19/C20/C96 and growth equals returns at a constant rate. The full claim is false: the rate and balance are cached when first read, so a rate assigned after this year's rate was read is ignored until next year, and changing the compounding (or rate) after New Year but before the balance is read rewrites last year's growth (2250 instead of 2000), so reading changes later figures and growth can differ from the returns recorded."
 },
 "C109": {
  "note": "Proved over any horizon with accounts at constant rates (varying rates: refuted in C19): exact when no account withholds tax, otherwise with the exact excess. False as stated: tax withheld by accounts is added to cash instead of deducted, and then again counted as tax paid, so a 1000 withdrawal with 300 withheld raises net worth by 600."
 },
 "C110": {
  "note": "Never earlier, recorded once, and with the right effect on the balance: all accounts. Earliest affordable time and no overdraft: accounts without growth, when no error is raised. Growing accounts: only if nothing is paid in later, and then only that the amount is held from the chosen time on. False in general, for every positive rate: with a later deposit money is taken before the account holds it (the interpolated time is computed backwards from the deposit); a planned later withdrawal can be left uncovered; growth after the last transaction is overlooked; an empty or overdrawn account with a later deposit raises ZeroDivisionError/ValueError."
 },
 "C111": {
  "note": "Proved: the exact figures after every sequence of operations, for every iteration order (books of what is settled so far this year). That reading is harmless, that net income is gross less tax withheld and that a newly assigned raise rate counts hold if changes are made before anything is read in the year (net income: in a later year than the first). False in general: net income is worked out when the person is made, so a gross income assigned later that year leaves it as it was; a raise rate assigned after this year's raise was read is ignored until the next year."
 },
 "C112": {
  "note": "Proved: over every history, with whole and high-precision numbers in any mixture, add_transaction, next_year, balance_at_time, returns, max_inflows and max_outflows of a high-precision account give the same errors or the same values as the account without types (AccountModel), in the high-precision type; the same without high_precision; and Timing gives high-precision times and weights for a moment left out, 'start', 'end' or a high-precision number. Refuted for the rest: Timing('BW') and Timing(0) give float times even with high_precision (timing.py:79-83, 91; forecast/base.py:250 uses the latter); a payment at a float time is accepted and then every figure of the account raises TypeError; whole numbers as weights raise TypeError (int/int is a float, base.py:545-560); time_to_balance raises TypeError whenever the account grows, because math.log gives a float (util.py:119-123)."
 },
 "C113": {
  "note": "For every rounding function (binary64 and 28-digit Decimals proved to be instances, with Flocq's definitions). The other tax models compute exactly; this one removes that simplification for brackets, people and jurisdictions. C113_totals: households' and jurisdictions' totals are the sums of everyone's tax within the rounding error of the additions. No overflow, NaN; the error bound is for roundings with a relative error bound (no underflow) and amounts without deductions or credits."
 },
 "C114": {
  "note": "For every rounding function; binary64 and 28-digit Decimals are instances (Flocq's definitions). The bounds need relative accuracy: for floats C114_accuracy_floats, with non-negative inflation and factors that do not overflow."
 },
 "C115": {
  "note": "For numbers with gradual or abrupt underflow below a smallest normal number m (floats: 2^-1022; Decimals: taken as 0). Codes and dict arguments of Timing are in C01-C06 (exact)."
 },
 "C116": {
  "note": "The power function (C library's or Decimal's) is an arbitrary function with the stated bounds; C116_rising also assumes that it keeps the order of exponents. C116_target, C116_emptied and C116_limits assume relative accuracy throughout (no underflow). C116_limits states the room with exact sums of the deposits and withdrawals made."
 },
 "C117": {
  "note": "Reading, writing, clearing and iterating hold (C117_mapping, for integers that are no object's id). Refuted: keys() raises TypeError for two or more keys of which one is not a number (C117_keys_refuted); in, get and del raise TypeError for unhashable keys and items() gives ids (C117_inherited_refuted); an integer equal to the id of a dict in use is taken for it (C117_collision_refuted)."
 },
 "C118": {
  "note": "Holds for whole and high-precision numbers throughout (C118_agrees_partial, C118_multi_partial) and for timings given as Timing objects in high precision (C118_settlement_partial). Refuted: inflation in floats, or as a table of whole numbers, makes every tax for a year not listed a TypeError (C118_float_inflation_refuted); Canadian jurisdictions do not pass high_precision on, so no tax is the int 0 (C118_canada_zero_refuted); refund and payment timings set as 'start' (the default) or a number have float weights, so every settlement in high precision is a TypeError (C118_settlement_refuted). C118_sum_over_brackets ties the typed tax to the sum over brackets."
 },
 "C119": {
  "note": "Holds for rates all of the high-precision type (C119_inflation_partial), raises given as one number or fitting types (C119_income_partial), RRSPs with fitting inflation and a balance of the high-precision type (C119_rrsp_partial); TFSAs work with inflation of any type (C119_tfsa). Refuted: Scenario never converts its rates, so whole-number rates (the default 0) give floats looking back (C119_whole_rates_refuted) and no tax can be computed in high precision before the tables (C119_default_inflation_refuted); raises given by year are not converted (C119_raise_table_refuted); float rates make RRSPs impossible to construct in unlisted years (C119_rrsp_float_inflation_refuted); a whole balance makes the withholding tax of an early RRIF a TypeError (C119_whole_balance_refuted)."
 },
 "C120": {
  "note": "Whatever was built and called before, a strategy gives what the untyped model does, with amounts that were given to some called strategy of the class (C120_whose_amounts_partial, C120_whose_bounds_partial), so with its own when there is one strategy or all agree, and always without high_precision (C120_same_amounts_partial, C120_same_bounds_partial); shares are exact for incomes in high precision (C120_shares_partial). Refuted: the cached attributes belong to the class, so a schedule spends the working years' amount in retirement (C120_retirement_refuted) and an allocation keeps to another strategy's bounds (C120_other_bounds_refuted); float inflation or returns raise TypeError (C120_float_inflation_refuted, C120_float_returns_refuted), and so do incomes in whole numbers (C120_whole_incomes_refuted)."
 },
 "C121": {
  "note": "Proved for all sequences of decorators and classes (C121_declaration, C121_inherited, C121_only_properties, C121_inputs_win, C121_next_year, C121_clear_cache) for properties not themselves called getter, setter or deleter; assigning may reorder the years in a history. Refuted at the edges: a subclass that replaces a recorded property by something else keeps a history attribute that raises AttributeError (C121_replaced_refuted), and a property called 'setter' becomes 'getter' when given a setter (C121_name_refuted)."
 },
 "C122": {
  "note": "Calls: proved in full for sets of people and for single people (C122_household_is_sum, C122_person_is_sum, C122_spouses_is_sum, C122_all_or_nothing, C122_canadian_arguments, C122_canadian_household, C122_canadian_bounds). Refuted: tax_person of TaxMulti fails unless an amount is given for every jurisdiction (C122_tax_person_needs_amounts_refuted); lists of people cannot be taxed; tax_brackets(year, bracket) and accum(year, bracket) answer only for thresholds shared by all jurisdictions (_partial); personal_deduction, credit and credit_rate are the first jurisdiction's alone. A person's own deductions and credits count twice, as in C42: the formula of C122_canadian_household says so."
 },
 "C123": {
  "note": "Proved: the bounds for every year of every run (C123_every_year) and the books where nothing is withheld (C123_net_worth; withholding: see C65, C109). False: a shortfall is drawn by the saving forecast, which is called first and hands the negative amount to the saving strategy, so withdrawals follow the saving strategy's priorities and are not reported (C123_saving_strategy_withdraws_refuted)."
 },
 "C124": {
  "note": "Proved for every year of every run for accounts that do not share their place in the priorities: high-interest debts; with 'Ordered' strategies accounts alone in their class, and low-interest debts that form a class of their own (no shared group limits, accounts that take and give exactly what they are asked within their limits). False for accounts that share their place: when saving, 44 of 90 can stay behind although an account has room for 24 more (C124_shared_place_refuted); when withdrawing, the rebalancing of a weighted group rounds its shares down and cannot make up for it, so a few cents an account holds can stay unused although the year ends short (C124_shared_place_withdrawals_refuted)."
 },
 "C125": {
  "note": "Joins C107, C66, C68 and C122: the year that reaches the tax treatment is shown to be the forecast's. As in C122 the formula counts a person's own deductions and credits twice (C42 says that the code does). The shipped province is British Columbia (C102). What a person's record shows is any function of the accounts' transactions and the rest of the household (C105 says what)."
 },
 "C126": {
  "note": "Proved for amounts of a fitting type (no floats with high_precision, nothing else without) and weights of a Timing object that are high-precision numbers; with accounts, times must fit too. Refuted otherwise: amounts are not converted, so a float with high_precision, or a Decimal without it, is a TypeError whatever the accounts hold (C126_floats_refuted, C126_high_refuted); the times made from a frequency code or from an ordinary number are floats even with high_precision (C126_times_refuted), which accounts then do not accept (C112). Timing arguments that are dicts and no Timing objects are not modelled with types."
 }
}