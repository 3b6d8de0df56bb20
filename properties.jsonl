{"id": "C01", "title": "Timing(when, frequency) is a complete, evenly spaced schedule", "statement": "Timing(when=w, frequency=n) with 0<=w<=1 and n>=1 produces exactly n distinct transaction times, namely (k+w)/n for k=0..n-1, all inside [0,1], each of weight 1/n, and the weights sum to exactly 1.", "quantifier": "every when in [0,1] and every positive integer frequency", "why_tests_cant": "infinitely many (when, frequency) pairs; tests sample a handful of frequencies", "anchors": ["forecaster/utility/timing.py:Timing.__init__"]}
{"id": "C02", "title": "Normalising a timing preserves proportions and hits the requested total", "statement": "timing.normalized(keys) has weights proportional to the original ones that sum to 1, and timing.time_series(scalar, keys) has amounts in the same proportions that sum to the scalar; both keep exactly the timing's times (or exactly the requested keys), raise KeyError iff a requested key is absent, and normalising an already-normalised timing leaves it unchanged.", "quantifier": "every timing with non-zero total weight, every scalar, every subset of keys", "why_tests_cant": "quantifies over all weight assignments and all scalars", "anchors": ["forecaster/utility/timing.py:Timing.normalized", "forecaster/utility/timing.py:Timing.time_series", "forecaster/utility/timing.py:Timing._normalized"]}
{"id": "C03", "title": "A net-inflow cashflow becomes a timing that never spends money before it arrives", "statement": "Timing(transactions) for cash flows with positive total has positive weights summing exactly to that total, at times drawn from the cash flows, and at every instant the amount scheduled so far is at most the smallest cumulative cash position from then on: withdrawing by the schedule never makes any later cumulative position negative because of the schedule. It is also greedy: no schedule with that safety property releases more money by any time.", "quantifier": "every finite cash-flow dict with both signs and positive total", "why_tests_cant": "the guarantee is a statement about every prefix of every possible cash-flow sequence", "anchors": ["forecaster/utility/timing.py:Timing._convert_dict", "forecaster/utility/timing.py:Timing._accum_inflows"]}
{"id": "C04", "title": "A net-outflow cashflow becomes a timing that covers every shortfall", "statement": "Timing(transactions) for cash flows with negative total has positive weights, and topping the cash position up by those weights keeps the running cash position non-negative at every time; each top-up is made exactly when the position would otherwise go negative and exactly for the missing amount, and the weights sum to the largest cumulative deficit.", "quantifier": "every finite cash-flow dict with negative total", "why_tests_cant": "statement about every prefix of every possible cash-flow sequence", "anchors": ["forecaster/utility/timing.py:Timing._convert_dict", "forecaster/utility/timing.py:Timing._accum_outflows"]}
{"id": "C05", "title": "Timings have non-negative weights whatever cash flows they were built from", "statement": "Building a Timing from any cash-flow dict (both signs, one sign, all zero, empty, zero total) yields only non-negative weights at times drawn from the dict, and a timing built from one-signed flows keeps every time with the absolute weight.", "quantifier": "every finite cash-flow dict", "why_tests_cant": "six-way case split over arbitrarily long dicts", "anchors": ["forecaster/utility/timing.py:Timing._convert_dict"]}
{"id": "C06", "title": "when/frequency conversion accepts exactly the documented values", "statement": "when_conv accepts 'start' (0), 'end' (1) and numbers in [0,1] and rejects everything else with an exception (ValueError for out-of-range numbers, TypeError for other strings); frequency_conv maps each documented code to its number of periods, keeps positive integers, passes None through, and rejects unknown codes, non-integers and non-positive numbers.", "quantifier": "every string and every number", "why_tests_cant": "the rejected domain is infinite", "anchors": ["forecaster/utility/timing.py:when_conv", "forecaster/utility/timing.py:frequency_conv"]}
{"id": "C07", "title": "Adding and subtracting transaction dicts is pointwise", "statement": "add_transactions/subtract_transactions produce, at every time, the sum/difference of the two inputs' values at that time (absent = 0); hence totals add, addition commutes and subtracting what was added gives back the original cash flow at every time.", "quantifier": "every pair of cash-flow dicts with arbitrary overlapping times", "why_tests_cant": "all dict pairs and overlaps", "anchors": ["forecaster/utility/timing.py:add_transactions", "forecaster/utility/timing.py:subtract_transactions"]}
{"id": "C08", "title": "nearest_year picks the base year as documented", "statement": "nearest_year returns the requested year if present; otherwise the latest earlier year; otherwise the earliest later year; None only when the table is empty; the answer is independent of the order of the dict.", "quantifier": "every table of years and every target year", "why_tests_cant": "all tables and targets", "anchors": ["forecaster/utility/inflation.py:nearest_year"]}
{"id": "C09", "title": "Extending a table by inflation scales the nearest year's values by exactly one inflation factor", "statement": "extend_inflation_adjusted returns the listed value unmodified for listed years and otherwise every entry of the nearest year's value multiplied by inflation_adjust(target, nearest).", "quantifier": "every table (scalar, list or dict values), every year, every inflation function", "why_tests_cant": "all tables, years and inflation functions", "anchors": ["forecaster/utility/inflation.py:extend_inflation_adjusted"]}
{"id": "C10", "title": "inflation_adjust built from a dict is a ratio and therefore composes", "statement": "The function built by build_inflation_adjust from a dict satisfies f(t,b)=a[t]/a[b]; f(y,y)=1; f(a,c)=f(a,b)*f(b,c); the base year defaults to the earliest year; None gives the constant 1; non-dict non-callable input is a TypeError.", "quantifier": "every table of non-zero adjustments and all years in it", "why_tests_cant": "composition law over all triples of years", "anchors": ["forecaster/utility/inflation.py:build_inflation_adjust"]}
{"id": "C11", "title": "Scenario inflation composes between any years, forwards and backwards", "statement": "For every scenario with no -100% inflation: inflation_adjust(y,y)=1, adjusting from a to b then b to c equals adjusting from a to c, reversing inverts the factor, each forward year multiplies by exactly 1+inflation of the year left, and the default base year is initial_year.", "quantifier": "every inflation series and all year triples in either order", "why_tests_cant": "composition across arbitrarily many years in both directions", "anchors": ["forecaster/scenario.py:Scenario.accumulation_function", "forecaster/scenario.py:InflationAdjust.__call__"]}
{"id": "C12", "title": "Scenario.inflation_adjustments reports cumulative inflation since base_year", "statement": "inflation_adjustments(base)[year] is the cumulative inflation from base to year (so >= 1 for later years under non-negative inflation), i.e. the same factor as inflation_adjust(year, base).", "quantifier": "every scenario, base year and modelled year", "why_tests_cant": "relation between two API entry points for all series", "anchors": ["forecaster/scenario.py:Scenario.inflation_adjustments"]}
{"id": "C13", "title": "A scenario covers exactly its declared years", "statement": "Iterating a Scenario yields exactly num_years consecutive years from initial_year in ascending order, len() agrees, num_years < 1 is rejected; list inputs assign element k to year initial_year+k and nothing else, scalars apply to all years, dicts are used as is.", "quantifier": "every initial year, num_years and input shape", "why_tests_cant": "all lengths and shapes of the inputs", "anchors": ["forecaster/scenario.py:Scenario.__init__", "forecaster/scenario.py:Scenario.__iter__", "forecaster/scenario.py:Scenario._build_dict"]}
{"id": "C14", "title": "Recorded history never changes once its year is over", "statement": "Once a ledger object has advanced past a year, no later sequence of reads, assignments, deletions, cache clears or year advances changes the value its history reports for that year.", "quantifier": "every program of property operations and every number of years", "why_tests_cant": "quantifies over all operation sequences", "anchors": ["forecaster/ledger/recorded_property.py:recorded_property", "forecaster/ledger/base.py:Ledger.next_year"]}
{"id": "C15", "title": "User inputs override computed values in every year they are given", "statement": "If inputs contain a value for property p and year y, then whenever this_year = y reading p returns that value, no assignment, deletion or cache-clear changes it, and history reports it.", "quantifier": "every input table and every operation sequence", "why_tests_cant": "all operation sequences", "anchors": ["forecaster/ledger/base.py:Ledger.__init__", "forecaster/ledger/recorded_property.py:recorded_property"]}
{"id": "C16", "title": "Advancing a ledger by a year records every recorded property exactly once", "statement": "After any number of next_year calls the histories of all recorded properties contain an entry for every elapsed year, the value recorded is the one a read would have returned immediately before the advance, and this_year has increased by exactly the number of calls.", "quantifier": "every set of recorded properties and every number of years", "why_tests_cant": "unbounded number of years and properties", "anchors": ["forecaster/ledger/base.py:Ledger.next_year", "forecaster/ledger/base.py:Ledger.record_properties"]}
{"id": "C17", "title": "Cached recorded properties are stable until invalidated", "statement": "Within a year, once a cached recorded property has been read, all later reads return the same value until it is assigned, deleted or the cache is cleared; after a clear the next read recomputes; the history property agrees with the read.", "quantifier": "every interleaving of reads and unrelated operations", "why_tests_cant": "all interleavings", "anchors": ["forecaster/ledger/recorded_property.py:recorded_property_cached", "forecaster/ledger/base.py:Ledger.clear_cache"]}
{"id": "C18", "title": "Account growth is multiplicative in time and matches the nominal rate", "statement": "accumulation_function(t, r, n) is positive, equals 1 at t=0, composes (A(s+t)=A(s)A(t)), equals 1+r over one year under annual compounding, is monotone in t for positive rates, equals e^(rt) under continuous compounding, and the inverse function recovers t.", "quantifier": "every rate above -n, every compounding frequency (incl. continuous), every time", "why_tests_cant": "real-valued laws over a continuum", "anchors": ["forecaster/accounts/util.py:accumulation_function", "forecaster/accounts/util.py:accumulation_function_inverse", "forecaster/accounts/util.py:value_at_time"]}
{"id": "C19", "title": "Account money is conserved across a year: new balance = old balance + transactions + returns", "statement": "Advancing an account by a year makes its balance equal to last year's balance plus all of last year's transactions plus the returns reported for last year, equal to the balance_at_time('end') reported before the advance.", "quantifier": "every balance, every set of transactions and any rates for the two years", "why_tests_cant": "all transaction sets and rate sequences", "anchors": ["forecaster/accounts/base.py:Account.balance", "forecaster/accounts/base.py:Account.returns", "forecaster/accounts/base.py:Account.next_year", "forecaster/accounts/base.py:Account.balance_at_time"]}
{"id": "C20", "title": "Account transactions accumulate by time and split exactly into inflows and outflows", "statement": "add_transaction(v, when) adds v to the value at that time and changes nothing else; inflows() >= 0 >= outflows(), inflows()+outflows() equals the sum of all transactions (incl. extra ones passed in); invalid times are rejected with no effect.", "quantifier": "every sequence of added transactions", "why_tests_cant": "all sequences of transactions", "anchors": ["forecaster/accounts/base.py:Account.add_transaction", "forecaster/accounts/base.py:Account.inflows", "forecaster/accounts/base.py:Account.outflows"]}
{"id": "C21", "title": "transactions_to_balance lands exactly on the target balance", "statement": "When no total limit binds, adding the transactions returned by transactions_to_balance(timing, target) makes balance_at_time('end') equal the target; they are proportional to the timing weights; when a limit binds the total equals the limit, and never lies outside [min_total, max_total].", "quantifier": "every account state, timing, rate and target", "why_tests_cant": "continuum of states and timings", "anchors": ["forecaster/accounts/base.py:Account.transactions_to_balance"]}
{"id": "C22", "title": "Withdrawing max_outflows never overdraws an account or exceeds its limit", "statement": "The flows returned by max_outflows are all non-positive, leave a non-negative end balance when added (for non-negative starting position), and their total is never below max_outflow_limit net of outflows already made.", "quantifier": "every account state, timing, rate and limit (finite or infinite)", "why_tests_cant": "continuum of states", "anchors": ["forecaster/accounts/base.py:Account.max_outflows"]}
{"id": "C23", "title": "max/min flow methods respect sign and annual limits", "statement": "max_inflows returns non-negative flows totalling at most max_inflow_limit minus inflows already made; min_inflows totals exactly what is still required (never negative); min_outflows likewise for outflows; a satisfied or exceeded limit yields zero flows, never flows of the opposite sign.", "quantifier": "every account state, timing and limits", "why_tests_cant": "continuum of states and limit configurations", "anchors": ["forecaster/accounts/base.py:Account.max_inflows", "forecaster/accounts/base.py:Account.min_inflows", "forecaster/accounts/base.py:Account.min_outflows"]}
{"id": "C24", "title": "time_to_balance is the time at which the balance reaches the value", "statement": "When time_to_balance(v) returns a finite t, the account's projected balance at t, computed from the balance and growth function, equals v; zero-growth accounts report 0 or infinity correctly.", "quantifier": "every starting value, target and rate", "why_tests_cant": "continuum", "anchors": ["forecaster/accounts/base.py:Account.time_to_balance", "forecaster/accounts/util.py:time_to_value"]}
{"id": "C25", "title": "Debts are always negative balances and are never overpaid", "statement": "Constructing a Debt with a positive or negative balance gives the same non-positive balance; max_inflows and min_inflows never total more than what is needed to bring the end-of-year balance to zero, nor more than minimum payment plus accelerated payment; no outflows are allowed.", "quantifier": "every debt balance, rate, payment timing, minimum and accelerated payment (finite or infinite)", "why_tests_cant": "continuum", "anchors": ["forecaster/accounts/debt.py:Debt"]}
{"id": "C26", "title": "Linked accounts share one limit", "statement": "For accounts linked to the same owner and token: writing the limit through any account changes what every account in the group reads and nothing outside the group; the group is exactly the set of accounts registered under that link. A limit for which an account has no link is that of a plain account, and only the account's own transactions count towards it.", "quantifier": "every sequence of registrations and limit writes over any number of owners/tokens/accounts", "why_tests_cant": "all histories of registration and writes", "anchors": ["forecaster/accounts/link.py:AccountLink", "forecaster/accounts/linked_limit.py:LinkedLimitAccount"]}
{"id": "C27", "title": "Each linked limit setter writes its own link", "statement": "Setting max_outflow_limit (min_outflow_limit) on an account with an outflow link changes the shared outflow limit and leaves the inflow limits of the group unchanged.", "quantifier": "every linked-limit account with any combination of links", "why_tests_cant": "all combinations of links", "anchors": ["forecaster/accounts/linked_limit.py:LinkedLimitAccount.max_outflow_limit"]}
{"id": "C28", "title": "A linked group never contributes more than its shared room", "statement": "The total of max_inflows (max_outflows) of a linked account, computed after any transactions made in any account of the group, never exceeds the shared limit minus what the whole group has already contributed (withdrawn); its min_inflows (min_outflows) are exactly what the whole group still has to contribute (withdraw) to reach a shared minimum.", "quantifier": "every group size and every distribution of transactions in the group", "why_tests_cant": "all group histories", "anchors": ["forecaster/accounts/linked_limit.py:LinkedLimitAccount.max_inflows", "forecaster/accounts/linked_limit.py:LinkedLimitAccount._merge_transactions"]}
{"id": "C29", "title": "Registered accounts advance in lockstep and room is accrued exactly once per year", "statement": "Whichever account of a contributor's group is advanced first and however many of them are advanced, after next_year all accounts in the group and the contributor are in the same next year, and the group's contribution room has been updated exactly once for that year.", "quantifier": "every group size, order and multiplicity of next_year calls", "why_tests_cant": "all orders of calls", "anchors": ["forecaster/canada/accounts/registered_account.py:RegisteredAccount.next_year"]}
{"id": "C30", "title": "Unused contribution room carries over; used room does not", "statement": "Next year's contribution room = this year's room - contributions made by the whole linked group (+ withdrawals for TFSA) + new accrual.", "quantifier": "every group size and all contribution patterns", "why_tests_cant": "all distributions of contributions over linked accounts", "anchors": ["forecaster/canada/accounts/rrsp.py:RRSP.next_contribution_room", "forecaster/canada/accounts/tfsa.py:TFSA.next_contribution_room"]}
{"id": "C31", "title": "RRSP room accrues at 18% of income up to the year's maximum and stops after 71", "statement": "New RRSP accrual is min(18% of contributor's gross income, inflation-adjusted maximum); it is 0 once the contributor is over 71 next year; contributions are fully deductible and withdrawals fully taxable.", "quantifier": "every income, age and year", "why_tests_cant": "all incomes/ages/years", "anchors": ["forecaster/canada/accounts/rrsp.py:RRSP.next_contribution_room", "forecaster/canada/accounts/rrsp.py:RRSP.taxable_income", "forecaster/canada/accounts/rrsp.py:RRSP.tax_deduction"]}
{"id": "C32", "title": "An RRSP converts to a RRIF no later than the year the contributor turns 71", "statement": "RRIF_conversion_year never exceeds the year in which the contributor reaches 71: defaults satisfy it and any later assignment is rejected with ValueError leaving the old value.", "quantifier": "every birth year, initial year and assigned year", "why_tests_cant": "all years", "anchors": ["forecaster/canada/accounts/rrsp.py:RRSP.rrif_conversion_year"]}
{"id": "C33", "title": "RRIF minimum distributions follow the age table and are mandatory outflows", "statement": "Before/at conversion the minimum distribution is 0; afterwards it is balance times the table rate for the contributor's age (maximum table rate beyond it, balance/(90-age) below it); min_outflow_limit is never weaker than it.", "quantifier": "every age, balance and year", "why_tests_cant": "all ages and years", "anchors": ["forecaster/canada/accounts/rrsp.py:RRSP.minimum_distribution", "forecaster/canada/accounts/rrsp.py:RRSP.min_outflow_limit"]}
{"id": "C34", "title": "Withholding tax on RRSP withdrawals uses the bracket of the withdrawn amount and exempts RRIF minimums", "statement": "tax_withheld equals the withdrawn amount times the rate of the highest bracket strictly below it (lowest bracket otherwise); after conversion only the amount in excess of the minimum distribution is subject to withholding.", "quantifier": "every withdrawal amount and withholding table, before and after conversion", "why_tests_cant": "all amounts and tables", "anchors": ["forecaster/canada/accounts/rrsp.py:RRSP.tax_withheld"]}
{"id": "C35", "title": "TFSA room accrues per calendar year from age 18 with inflation-indexed amounts", "statement": "The TFSA accrual for a listed year is the listed amount; for later unlisted years it is the last listed amount indexed up by inflation, rounded to the statutory step; it is 0 for years in which the owner is under 18; initial room is the sum over eligible years.", "quantifier": "every owner, year and inflation series", "why_tests_cant": "all years and inflation series", "anchors": ["forecaster/canada/accounts/tfsa.py:TFSA"]}
{"id": "C36", "title": "Taxable account cost base is conserved", "statement": "Across a year, next year's ACB = ACB + all transactions + capital gain realised (no money is created or lost between cost base and gains); only inflows never realise a gain; withdrawing realises the proportion withdrawn/balance of the accrued gain; half of the gain is taxable.", "quantifier": "every transaction sequence and growth pattern with positive balances", "why_tests_cant": "all sequences of interleaved inflows and outflows", "anchors": ["forecaster/canada/accounts/taxable_account.py:TaxableAccount.capital_gain"]}
{"id": "C37", "title": "A taxable account's reported gain always reflects its current transactions", "statement": "At all times in a year, reading capital_gain/taxable_income gives the value computed from the transactions currently recorded, however they were added or removed.", "quantifier": "every interleaving of reads and add/set/delete/clear of transactions", "why_tests_cant": "all interleavings", "anchors": ["forecaster/canada/accounts/taxable_account.py:TaxableAccount.add_transaction", "forecaster/accounts/base.py:Account.__delitem__"]}
{"id": "C38", "title": "Income tax equals the sum over brackets", "statement": "For every bracket table, tax on income x (no credits) equals the sum over brackets of rate times the part of x falling in that bracket; independent of the order in which brackets are listed.", "quantifier": "every bracket table and every income", "why_tests_cant": "all tables and incomes", "anchors": ["forecaster/tax.py:Tax.tax_money", "forecaster/tax.py:Tax.add_accum", "forecaster/tax.py:Tax.marginal_bracket"]}
{"id": "C39", "title": "Income tax is non-negative, monotone, continuous and never takes more than the top marginal rate of extra income", "statement": "For non-negative rates tax is >= 0, non-decreasing in income, tax(y)-tax(x) <= maxrate*(y-x), and a deduction or credit never increases tax.", "quantifier": "every bracket table, income pair, deduction and credit", "why_tests_cant": "all pairs of incomes and tables", "anchors": ["forecaster/tax.py:Tax.tax_money"]}
{"id": "C40", "title": "Tax tables extend to unlisted years by inflating thresholds and keeping rates", "statement": "For every unlisted year the brackets are those of the nearest year with thresholds multiplied by the inflation factor and unchanged rates, and the accumulated-tax table is the one derived from those brackets; hence tax scales with inflation (tax(f*x) in the later year = f*tax(x) in the base year).", "quantifier": "every table, inflation function, year", "why_tests_cant": "all years and incomes", "anchors": ["forecaster/tax.py:Tax.tax_brackets", "forecaster/tax.py:Tax.accum"]}
{"id": "C41", "title": "Tax queries do not depend on which query was made first", "statement": "The results of tax_brackets, accum, marginal_rate and tax calls for a year are the same whatever queries for that year were made before.", "quantifier": "every sequence of queries", "why_tests_cant": "all query sequences", "anchors": ["forecaster/tax.py:Tax.accum", "forecaster/tax.py:Tax.tax_brackets"]}
{"id": "C42", "title": "A person's deductions and credits are applied exactly once", "statement": "Tax for a person is the tax on taxable income less that person's deductions plus the jurisdiction's deduction, with the person's credits counted once.", "quantifier": "every person with any incomes, deductions, credits", "why_tests_cant": "all amounts", "anchors": ["forecaster/tax.py:Tax.tax_person", "forecaster/tax.py:Tax.deduction", "forecaster/tax.py:Tax.credit"]}
{"id": "C43", "title": "Tax for a household is the sum of its members' taxes, each counted exactly once", "statement": "tax(people) visits every person exactly once whatever the iteration order and spouse structure (including spouses outside the set), and equals the sum of per-person taxes when couples are not treated specially.", "quantifier": "every finite set of people and every spouse relation", "why_tests_cant": "all relations and orders", "anchors": ["forecaster/tax.py:Tax.tax_people"]}
{"id": "C44", "title": "Multi-jurisdiction tax is the sum of the jurisdictions' taxes", "statement": "TaxMulti(...)(income, year) is the sum over jurisdictions of each one's tax; its marginal_rate is the sum of marginal rates and tax_brackets merges all thresholds with summed rates.", "quantifier": "every list of jurisdictions and every income", "why_tests_cant": "all lists of tables", "anchors": ["forecaster/tax.py:TaxMulti"]}
{"id": "C45", "title": "Canadian spousal credit is claimed by exactly one spouse and bounded", "statement": "Of two spouses at most one claims the spousal credit (the higher earner, ties broken consistently), and the amount is between 0 and the year's maximum.", "quantifier": "every pair of incomes", "why_tests_cant": "all income pairs incl. ties", "anchors": ["forecaster/canada/tax.py:TaxCanadaJurisdiction"]}
{"id": "C46", "title": "Pension credit is bounded by pension income and by the statutory maximum", "statement": "The pension income credit is min(total RRSP/RRIF withdrawals, maximum), never negative.", "quantifier": "every collection of accounts", "why_tests_cant": "all account collections", "anchors": ["forecaster/canada/tax.py:TaxCanadaJurisdiction"]}
{"id": "C47", "title": "Marriage is a symmetric one-to-one relation", "statement": "After any sequence of spouse assignments, a.spouse = b iff b.spouse = a, and nobody has two partners.", "quantifier": "every sequence of spouse assignments over any number of people", "why_tests_cant": "all assignment sequences", "anchors": ["forecaster/person.py:Person.spouse"]}
{"id": "C48", "title": "Accounts and owners stay consistent", "statement": "After any sequence of owner (re)assignments an account is in a person's accounts iff that person is its owner.", "quantifier": "every sequence of owner assignments", "why_tests_cant": "all sequences", "anchors": ["forecaster/accounts/base.py:Account.owner", "forecaster/person.py:Person.accounts"]}
{"id": "C49", "title": "Employment income grows by raises until retirement and is zero after", "statement": "For each year not given as input, gross income is last year's times (1+raise) up to and including the retirement year, and zero in every later year; net income = gross income - tax withheld.", "quantifier": "every number of years, raise function and retirement date", "why_tests_cant": "unbounded horizon", "anchors": ["forecaster/person.py:Person.gross_income", "forecaster/person.py:Person.net_income"]}
{"id": "C50", "title": "Asset allocations sum to 100% and respect equity bounds", "statement": "Every AllocationStrategy result has stocks+bonds+other=1 and min_equity <= stocks <= max_equity for every age, target and transition configuration.", "quantifier": "every age, target, bounds, standard retirement age, adjustments", "why_tests_cant": "all ages and parameter combinations", "anchors": ["forecaster/strategy/allocation.py:AllocationStrategy"]}
{"id": "C51", "title": "Portfolio return is the allocation-weighted average of asset returns", "statement": "The rate function returns the allocation-weighted average of the year's stock, bond and other returns, so it lies between the smallest and largest of these for non-negative allocations.", "quantifier": "every allocation and return", "why_tests_cant": "continuum", "anchors": ["forecaster/strategy/allocation.py:AllocationStrategy.rate_function"]}
{"id": "C52", "title": "Living expenses are never negative and respect the retirement switch", "statement": "Every LivingExpensesStrategy method returns a non-negative amount; the schedule uses the working strategy up to and including the retirement year and the retirement strategy afterwards, and never less than the configured minimum living standard (inflation-adjusted).", "quantifier": "every income, principal, year, retirement year", "why_tests_cant": "all inputs", "anchors": ["forecaster/strategy/gross_transaction.py:LivingExpensesStrategy", "forecaster/strategy/gross_transaction.py:LivingExpensesStrategySchedule"]}
{"id": "C53", "title": "Debt priorities are a reordering of the debts: avalanche by rate, snowball by size", "statement": "avalanche/snowball return every given debt exactly once (with multiplicity), sorted by decreasing rate / increasing absolute balance, ties in given order.", "quantifier": "every list of debts", "why_tests_cant": "all lists", "anchors": ["forecaster/strategy/debt_payment/util.py"]}
{"id": "C54", "title": "Every outstanding debt is classified as high or low interest, exactly once", "statement": "The transaction strategy partitions debts with outstanding balance by the high-interest threshold; each debt is in exactly one class; with no threshold all debts are treated as documented.", "quantifier": "every set of debts and threshold", "why_tests_cant": "all sets", "anchors": ["forecaster/strategy/transaction/strategy.py:TransactionStrategy"]}
{"id": "C55", "title": "Planned account transactions never exceed what is available nor any limit", "statement": "For every account tree and every available cash flow, the transactions returned by TransactionTraversal total at most the available amount (in absolute value), have a single sign, and respect each account's and linked group's limits, provided max_flow_min_cost returns a feasible flow.", "quantifier": "every tree of accounts, weights, limits and available amounts", "why_tests_cant": "all trees and limits", "anchors": ["forecaster/strategy/transaction/base.py:TransactionTraversal", "forecaster/strategy/transaction/graph.py"]}
{"id": "C56", "title": "A transaction node is exactly one of leaf, ordered or weighted and nothing is lost in the tree", "statement": "Every source accepted is classified as exactly one of the three kinds, the leaves of the tree are exactly the accounts in the source, and taking subsets of children keeps priority order.", "quantifier": "every nested source structure", "why_tests_cant": "all nestings", "anchors": ["forecaster/strategy/transaction/node.py:TransactionNode"]}
{"id": "C57", "title": "Saturated-children rebalancing keeps every account and moves no money", "statement": "Splitting children by flows partitions them; merging flow dicts adds flows edge by edge and so preserves totals, conservation and capacity.", "quantifier": "every flow dict and child list", "why_tests_cant": "all flows", "anchors": ["forecaster/strategy/transaction/graph.py", "forecaster/strategy/transaction/base.py"]}
{"id": "C58", "title": "Sub-forecast transactions are double entry", "statement": "Every transaction recorded by a sub-forecast removes from the source exactly what it adds to the destination at the same time; total over all tracked accounts is unchanged; negative values are equivalent to swapping source and destination; the pieces at the different times sum to the value.", "quantifier": "every sequence of recorded transactions over any accounts", "why_tests_cant": "all transaction sequences", "anchors": ["forecaster/forecast/subforecast.py:SubForecast.add_transaction", "forecaster/forecast/subforecast.py:SubForecast._add_transaction"]}
{"id": "C59", "title": "A shifted transaction happens at the earliest affordable time not before the requested one", "statement": "When cash flows available to the source allow it, the transaction is placed at the earliest time at or after the requested time from which the cumulative balance never again drops below the value; otherwise at the requested time.", "quantifier": "every cash-flow dict, value and time", "why_tests_cant": "all cash-flow sequences", "anchors": ["forecaster/forecast/subforecast.py:SubForecast._shift_when"]}
{"id": "C60", "title": "Re-running a sub-forecast in the same year is idempotent", "statement": "Calling a sub-forecast again in the same year first reverses all its previous transactions, so that the accounts' transactions end up as if it had been called once.", "quantifier": "every number of repeated calls", "why_tests_cant": "any number of repetitions", "anchors": ["forecaster/forecast/subforecast.py:SubForecast.undo_transactions", "forecaster/forecast/subforecast.py:SubForecast.__call__"]}
{"id": "C61", "title": "Sub-forecast history keeps each year's transactions", "statement": "transactions_history[y] remains equal to the transactions recorded in year y after any number of next_year calls.", "quantifier": "every number of years and every transactions", "why_tests_cant": "unbounded histories", "anchors": ["forecaster/forecast/subforecast.py:SubForecast.next_year"]}
{"id": "C62", "title": "Income forecast credits exactly net income", "statement": "The income forecast adds to available exactly gross income minus withholding for every person, spread over their payment timing, plus carryover and tax adjustment.", "quantifier": "every set of people and timings", "why_tests_cant": "all sets", "anchors": ["forecaster/forecast/income.py:IncomeForecast"]}
{"id": "C63", "title": "Living-expense forecast removes exactly the planned living expenses", "statement": "The total removed from available equals the living expenses, split between people in proportion to net income, for every household (including fully retired ones). No share is taken before it falls due under that person's payment timing, and when cash always covers the expenses each share is taken exactly at those times.", "quantifier": "every set of people and incomes", "why_tests_cant": "all incomes", "anchors": ["forecaster/forecast/living_expenses.py:LivingExpensesForecast"]}
{"id": "C64", "title": "Saving forecast totals add up", "statement": "total savings = debt repayment + retirement contributions, each equal to the sum of the planned transactions to the respective accounts.", "quantifier": "every plan", "why_tests_cant": "all plans", "anchors": ["forecaster/forecast/saving.py:SavingForecast"]}
{"id": "C65", "title": "Withdrawal forecast credits available with withdrawals net of tax withheld", "statement": "Over a year the withdrawal forecast changes total available by withdrawals minus the tax withheld that the tax forecast later reports as already paid.", "quantifier": "every withdrawal plan and withholding", "why_tests_cant": "all plans", "anchors": ["forecaster/forecast/withdrawal.py:WithdrawalForecast", "forecaster/forecast/tax.py:TaxForecast"]}
{"id": "C66", "title": "Tax adjustment settles exactly the difference between tax withheld and tax owing", "statement": "tax_adjustment = total tax withheld - tax owing, and is paid/refunded in full next year at the configured times.", "quantifier": "every household and tax treatment", "why_tests_cant": "all amounts", "anchors": ["forecaster/forecast/tax.py:TaxForecast", "forecaster/forecast/base.py:Forecast"]}
{"id": "C67", "title": "Unspent money carries over to the next forecast year in full", "statement": "At the start of each year of a forecast the available cash is exactly last year's net unspent cash (at time 0) plus last year's tax adjustment; over any horizon, cash is conserved up to what sub-forecasts move.", "quantifier": "every horizon and every sequence of sub-forecast effects", "why_tests_cant": "unbounded horizon", "anchors": ["forecaster/forecast/base.py:Forecast"]}
{"id": "C68", "title": "All parts of a forecast advance in lockstep", "statement": "After running a forecast over a scenario of n years, every sub-forecast, person and account has advanced exactly once per year in the documented order, and recorded series have one entry per year.", "quantifier": "every scenario length, set of people and accounts", "why_tests_cant": "unbounded horizon", "anchors": ["forecaster/forecast/base.py:Forecast"]}
{"id": "C69", "title": "Forecaster parameters: explicit values win, defaults are built once and never leak", "statement": "get_param returns the user-supplied value when there is one, otherwise builds a default; building never overwrites user-supplied values; results are memoised per forecast; running a forecast does not mutate the inputs.", "quantifier": "every set of supplied parameters and every dependency order", "why_tests_cant": "all parameter combinations", "anchors": ["forecaster/forecaster.py:Forecaster.get_param", "forecaster/forecaster.py:Forecaster.build_param"]}
{"id": "C70", "title": "Settings values come from the file if present, else from defaults", "statement": "ValueReader attribute access returns the stored value if present, else the default when defaults are enabled, else raises; numeric conversion recursively converts all numeric strings (keys and values) and nothing else, and is idempotent.", "quantifier": "every JSON tree and key", "why_tests_cant": "all JSON trees", "anchors": ["forecaster/value_reader.py:ValueReader"]}
{"id": "C71", "title": "High-precision converted constants belong to their own object", "statement": "A high-precision-aware cached property returns the value converted with the object's own precision function, independently of accesses on other objects.", "quantifier": "every sequence of reads on any number of objects", "why_tests_cant": "all access sequences", "anchors": ["forecaster/utility/precision.py:HighPrecisionOptionalPropertyCached"]}
{"id": "C72", "title": "Withdrawing a linked account's max_outflows never overdraws it", "statement": "The flows returned by max_outflows of a linked-limit account, when recorded against that account, leave it with a non-negative end-of-year balance whatever transactions the other accounts of its group have.", "quantifier": "every world of linked accounts, every transaction history of the other accounts, every timing and limit", "why_tests_cant": "ranges over all groups and all transactions of the other accounts", "anchors": ["forecaster/accounts/linked_limit.py: LinkedLimitAccount._merge_transactions, max_outflows", "forecaster/accounts/base.py: Account.max_outflows"]}
{"id": "C73", "title": "Age in a year is that year minus the birth year", "statement": "person.age(year) is year minus the birth year for every person, and person.age(date) increases exactly on the person's birthday.", "quantifier": "every birth date, year and date", "why_tests_cant": "all calendar dates, including leap days", "anchors": ["forecaster/person.py:Person.age"]}
{"id": "C74", "title": "Contribution room given as an input is the room that applies", "statement": "When the user supplies contribution room for a year as an input, that figure is both what contribution_room reports and what caps contributions (max_inflows) in that year.", "quantifier": "every input year, group and history", "why_tests_cant": "all groups and input patterns", "anchors": ["forecaster/canada/accounts/registered_account.py:RegisteredAccount.next_year", "forecaster/ledger/recorded_property.py"]}
{"id": "C75", "title": "Cost bases and gains supplied by the user are honoured", "statement": "A capital gain supplied as an input for a year is what capital_gain/taxable_income report for that year, and an ACB supplied for a year is the account's cost base at the start of that year, whatever transactions are made; supplying one never makes a later year unusable.", "quantifier": "every set of inputs for acb and capital_gain, every operation sequence", "why_tests_cant": "all input years and histories", "anchors": ["forecaster/canada/accounts/taxable_account.py:TaxableAccount.capital_gain", "forecaster/canada/accounts/taxable_account.py:TaxableAccount.add_transaction"]}
{"id": "C76", "title": "TaxCanada applies each argument to its own jurisdiction and leaves the caller's data alone", "statement": "TaxCanada(income, year, federal_*, provincial_*) is federal tax with the federal deduction/credit plus provincial tax with the provincial ones, and calling it does not change dicts the caller passed, so repeated calls are independent.", "quantifier": "every income, year and combination of arguments", "why_tests_cant": "all argument combinations and call sequences", "anchors": ["forecaster/canada/tax.py:TaxCanada.__call__"]}
{"id": "C77", "title": "A strategy object always runs the method it was constructed with", "statement": "A Strategy is constructed exactly from a registered key or a decorated method; unknown keys raise ValueError, anything else TypeError; calling the object runs the method registered for that key, and passing a method selects that very method.", "quantifier": "every class of strategy methods, every constructor argument", "why_tests_cant": "every set of registered methods", "anchors": ["forecaster/strategy/base.py:Strategy", "forecaster/strategy/base.py:StrategyType"]}
{"id": "C78", "title": "Equity exposure never rises with age and never falls when retirement is postponed", "statement": "For both shipped allocation strategies the share of stocks is non-increasing in age for a fixed plan and non-decreasing in the planned retirement age when adjusting for the plan.", "quantifier": "every pair of ages and retirement ages, every configuration", "why_tests_cant": "two-point comparisons over a continuum", "anchors": ["forecaster/strategy/allocation.py:AllocationStrategy"]}
{"id": "C79", "title": "The priority tree contains every eligible account exactly once, high-interest debts first", "statement": "TransactionStrategy hands to the traversal a tree whose accounts are exactly the high-interest debts and the accounts with a weight for their class (or nearest ancestor), each once; high-interest debts come first; groups follow weights; low-interest debts follow the debt strategy.", "quantifier": "every set of accounts, every set iteration order, weights and thresholds", "why_tests_cant": "all sets of accounts and all hash orders", "anchors": ["forecaster/strategy/transaction/strategy.py:TransactionStrategy"]}
{"id": "C80", "title": "Priority lists are filled in order", "statement": "When a priority list (ordered node) is traversed, an account later in the list receives money only if every earlier account (or sub-list) has received all it can take.", "quantifier": "every list of accounts, limits and available amount, every minimum-cost maximum flow the solver may return", "why_tests_cant": "all lists and amounts; the solver may return any optimal flow", "anchors": ["forecaster/strategy/transaction/base.py:_add_node_ordered", "forecaster/strategy/transaction/graph.py:_sum_weight"]}
{"id": "C81", "title": "Minimum withdrawals are made even when they exceed the shortfall", "statement": "When withdrawals are planned, every account's minimum outflow (e.g. the mandatory minimum of a RRIF) is included in the plan, limited only by what is in the account and not by the shortfall.", "quantifier": "every tree, every account, every shortfall", "why_tests_cant": "all trees and amounts", "anchors": ["forecaster/strategy/transaction/base.py:TransactionTraversal.__call__"]}
{"id": "C82", "title": "Reported withdrawals are the year's withdrawals", "statement": "A forecast's withdrawals (gross_withdrawals) for a year equal what the plan took from the accounts in that year, and net_withdrawals is that amount less the tax withheld on the year's withdrawals.", "quantifier": "every plan, cash position and number of earlier years", "why_tests_cant": "all plans and histories", "anchors": ["forecaster/forecast/withdrawal.py:WithdrawalForecast.gross_withdrawals", "forecaster/forecast/withdrawal.py:WithdrawalForecast.net_withdrawals"]}
{"id": "C83", "title": "Reported savings are the contributions made", "statement": "Forecast.savings (\"contributions to savings for the year\") equals what the saving forecast moved into accounts in the year.", "quantifier": "every cash position, income, expenses and plan", "why_tests_cant": "all plans and cash positions", "anchors": ["forecaster/forecast/base.py:Forecast.savings", "forecaster/forecast/saving.py:SavingForecast.total"]}
{"id": "C84", "title": "One household retirement year", "statement": "Forecast.retirement_year and the retirement year handed to the living-expenses strategy are the same year, for every household in which someone has a retirement date.", "quantifier": "every set of people and retirement dates", "why_tests_cant": "all households", "anchors": ["forecaster/forecast/base.py:Forecast.retirement_year", "forecaster/forecast/living_expenses.py:LivingExpensesForecast.living_expenses"]}
{"id": "C85", "title": "A household's cash reconciles with the reported flows", "statement": "In every year of a forecast built from the five sub-forecasts, the cash left at the end of the year is the cash at its start plus net income, less living expenses, less what was saved, plus what was withdrawn (plus the change in tax withheld that the withdrawal forecast books); over any horizon no other source or sink of cash exists besides the tax adjustments.", "quantifier": "every household, strategy and horizon", "why_tests_cant": "unbounded horizon; interaction of all parts", "anchors": ["forecaster/forecast/base.py:Forecast", "forecaster/forecast/income.py:IncomeForecast", "forecaster/forecast/living_expenses.py:LivingExpensesForecast", "forecaster/forecast/saving.py:SavingForecast", "forecaster/forecast/withdrawal.py:WithdrawalForecast"]}
{"id": "C86", "title": "Deleting a setting", "statement": "Deleting a managed attribute of a settings object removes the stored value, so that the default (or KeyError) is what the next access gives, and deleting a setting that is stored succeeds.", "quantifier": "every settings object and attribute", "why_tests_cant": "all histories of sets and deletes", "anchors": ["forecaster/value_reader.py:ValueReaderAttribute.__delete__"]}
{"id": "C87", "title": "Settings written to a file are read back", "statement": "Writing a settings object and reading the file back gives the same values: the same keys, the same numbers, strings, lists and nested dicts, up to the order of keys; each written dict lists its keys in ascending order.", "quantifier": "every tree of values, in float and in high-precision mode", "why_tests_cant": "all value trees", "anchors": ["forecaster/value_reader.py:ValueReader.write", "forecaster/value_reader.py:ValueReader.read"]}
{"id": "C88", "title": "A failed write or read does no damage", "statement": "If writing fails the previous contents of the file are still there; if reading fails the reader stays usable: a later read of a good file succeeds and its attributes are those of that file.", "quantifier": "every failure point of write and read", "why_tests_cant": "all failure points", "anchors": ["forecaster/value_reader.py:ValueReader.write", "forecaster/value_reader.py:ValueReader.read"]}
{"id": "C89", "title": "Debt payments follow the strategy", "statement": "DebtPaymentStrategy pays debts in the order of the strategy: a debt gets more than its minimum payment only once every debt that is to be repaid first (smaller balance for snowball, higher rate for avalanche, given order in ties) takes no more; minimum payments come first in the same order (unless assign_min is False); payments are non-negative, total at most what is available, leave nothing over while a debt takes more, and no debt is overpaid. available may be a mapping or a single amount.", "quantifier": "every list of debts, balances, rates, limits, cash flow and every optimal flow", "why_tests_cant": "the order must hold for all combinations of balances, rates, limits and amounts", "anchors": ["forecaster/strategy/debt_payment/base.py:DebtPaymentStrategy", "forecaster/strategy/transaction/base.py:TransactionTraversal.__call__"]}
{"id": "C90", "title": "A traversal uses the methods it is given", "statement": "TransactionTraversal(priority, transaction_methods, group_methods) uses the given LimitTuples of methods for the leaves of the tree, so that leaves that are not accounts can be traversed.", "quantifier": "every tree, every LimitTuple of methods, every amount", "why_tests_cant": "claims about all custom method tuples cannot be tested exhaustively", "anchors": ["forecaster/strategy/transaction/base.py:TransactionTraversal.__init__", "forecaster/strategy/transaction/util.py:_get_transactions"]}
{"id": "C91", "title": "Retirement dates and ages agree and never precede birth", "statement": "Setting a person's retirement_age to n whole years makes retirement_date their n-th birthday (the 28th for 29 February births) and retirement_age read back n; retirement_age counts the birthdays up to the retirement date; a retirement date before birth is refused without effect, so no sequence of assignments can leave a person retiring before birth; retirement_date is optional.", "quantifier": "every birth date, every age or date assigned, every sequence of assignments", "why_tests_cant": "calendar arithmetic over all dates (month lengths, leap years) and all assignment histories", "anchors": ["forecaster/person.py:Person.retirement_date", "forecaster/person.py:Person.retirement_age", "forecaster/person.py:Person.birth_date"]}
{"id": "C92", "title": "The raise rate may be a number, a table by year, a function or None", "statement": "A person's gross income grows each year until retirement by the rate their raise_rate gives for that year: the number itself, the table's entry, the function's value, or no growth for None - whether given at construction or assigned later.", "quantifier": "every raise rate, every starting income, every number of years, every retirement date", "why_tests_cant": "all tables/functions and all horizons", "anchors": ["forecaster/person.py:Person.raise_rate_callable", "forecaster/person.py:Person.gross_income"]}
{"id": "C93", "title": "Running a forecast leaves its arguments alone and can be repeated", "statement": "run_forecast works on copies of the people, accounts and debts: the copies have the same structure as the originals across all three arguments (the same ownership, marriages and shared limits, one copy per object), everything mutable reachable from them is new, and whatever the forecast does, no object reachable from the arguments has changed afterwards, so a second run starts from the same data.", "quantifier": "every object graph (with cycles and sharing) given as people, accounts and debts; every sequence of reads, creations and mutations the forecast performs on what it was handed", "why_tests_cant": "aliasing: object graphs of any shape and any behaviour of the forecast", "anchors": ["forecaster/forecaster.py:Forecaster.run_forecast"]}
{"id": "C94", "title": "An account is a mapping from times to transactions", "statement": "Used as a mapping, an account behaves as a partial function from times in the year to amounts: account[t] = v replaces what is recorded at t, add_transaction accumulates, del removes (KeyError if nothing is there), in / len / iteration agree with what is recorded, iteration is ascending with each time once; 'start' and 'end' are accepted for 0 and 1; reading changes nothing; times outside the year are refused without effect.", "quantifier": "every history of assignments, additions, deletions, reads, membership tests, iterations and year ends", "why_tests_cant": "all histories of uses with all times, equal times written differently", "anchors": ["forecaster/accounts/base.py:Account.__getitem__", "forecaster/accounts/base.py:Account.__setitem__", "forecaster/accounts/base.py:Account.__iter__", "forecaster/accounts/base.py:Account.__contains__", "forecaster/accounts/base.py:Account.add_transaction"]}
{"id": "C95", "title": "Limits set on a node of a transaction strategy bound the accounts below it", "statement": "When a TransactionNode carries limits, the accounts below it are never between them assigned more than the node's maximum inflow, nor withdrawn from beyond its maximum outflow, whatever the accounts themselves would allow and wherever in the tree the node sits.", "quantifier": "every priority tree in which each node object occurs once, every node in it, all limits, account limits, amounts and precisions, every feasible flow returned by the network solver", "why_tests_cant": "nested and weighted trees, two passes sharing limits, every solver answer", "anchors": ["forecaster/strategy/transaction/node.py:TransactionNode", "forecaster/strategy/transaction/base.py:TransactionTraversal._embed_limit", "forecaster/strategy/transaction/base.py:TransactionTraversal.__call__"]}
{"id": "C96", "title": "What a plain account offers and reports", "statement": "A plain Account has no minimum inflows or outflows (all zero for every timing and limit argument), accepts unlimited inflows, can be emptied exactly once (after withdrawing what max_outflows offers the year-end balance is zero and nothing more is offered; max_outflow(when) empties the balance at that moment and agrees with max_outflows when nothing is scheduled later), and reports as taxable income exactly the money it produced in the year, never less than zero.", "quantifier": "every account, rate, compounding frequency, set of recorded and hypothetical transactions, timing and limit argument", "why_tests_cant": "all balances, rates, transactions and timings", "anchors": ["forecaster/accounts/base.py:Account.min_inflows", "forecaster/accounts/base.py:Account.min_outflows", "forecaster/accounts/base.py:Account.max_inflows", "forecaster/accounts/base.py:Account.max_outflow", "forecaster/accounts/base.py:Account.taxable_income"]}
{"id": "C97", "title": "The amount a sub-forecast reports as available", "statement": "total_available is the money a sub-forecast could use in the year: what `available` held when it was called, before its own transactions; calling it again in the year reports the same figure; the figure belongs to the current year; for an Account it is the amount that can be withdrawn by the end of the year, positive when there is money, as for a mapping of cash flows.", "quantifier": "every sub-forecast body (any adaptive sequence of transactions), every mapping or Account given as available", "why_tests_cant": "all bodies, all cash flows, all repeated calls", "anchors": ["forecaster/forecast/subforecast.py:SubForecast.__call__", "forecaster/forecast/subforecast.py:SubForecast.next_year", "forecaster/accounts/base.py:Account.max_outflow"]}
{"id": "C98", "title": "Weighted groups share money in proportion to their weights", "statement": "A weighted group of accounts (a dict from accounts to weights) given an amount shares it in proportion to the weights: each member gets the share its weight says, unless it cannot take that much (its maximum) or must take more (its minimum); what one member does not take goes to the others in proportion; nothing is left over while a member has room; a group with a maximum of its own shares that maximum when the amount exceeds it. Withdrawals are shared the same way.", "quantifier": "every group of any size, all positive weights, all amounts, all account limits, every optimal solution the network-flow solver may return", "why_tests_cant": "the number of members, the weights, the limits and the solver's choice among optimal flows are unbounded", "anchors": ["forecaster/strategy/transaction/base.py:TransactionTraversal._add_node_weighted", "forecaster/strategy/transaction/base.py:TransactionTraversal._add_weighted_children", "forecaster/strategy/transaction/base.py:TransactionTraversal._balance_weighted_flows"]}
{"id": "C99", "title": "A registered account is built as asked", "statement": "A registered account that is successfully constructed has the contributor asked for (the owner if none is named), is among its owner's accounts and in the group of that contributor's accounts of its class (or of the token or link given), and has the room given, else the room the group already has, else the class's own initial room (0 for an RRSP, the inferred room for a TFSA). No other account's contributor, no other group and no other person's accounts change. The aliases contribution_room/max_inflow_limit and contributor+max_inflow_token/max_inflow_link mean the same, and giving both is rejected with ValueError and without effect.", "quantifier": "all households built so far, all combinations of arguments including link tuples and shared AccountLink objects", "why_tests_cant": "the combinations of arguments and the histories of the household they are applied to are unbounded", "anchors": ["forecaster/canada/accounts/registered_account.py:RegisteredAccount.__init__", "forecaster/canada/accounts/registered_account.py:RegisteredAccount._process_alias_args", "forecaster/accounts/linked_limit.py:LinkedLimitAccount._process_link", "forecaster/accounts/link.py:AccountLink.__init__"]}
{"id": "C100", "title": "A rejected account constructor leaves no trace", "statement": "When constructing an account raises an exception, the owner's accounts and the shared records of linked accounts are as they were before.", "quantifier": "all households, all arguments that are rejected, for whatever reason", "why_tests_cant": "the point at which the constructor gives up depends on the arguments and on the history of the household", "anchors": ["forecaster/accounts/base.py:Account.__init__", "forecaster/canada/accounts/rrsp.py:RRSP.__init__", "forecaster/accounts/linked_limit.py:LinkedLimitAccount.__init__"]}
{"id": "C101", "title": "Every contribution counts against its contributor's room", "statement": "What may still be contributed to a registered account this year is the room of its contributor (for that class or token) less all that has been contributed this year to the accounts with that contributor (and class or token), whichever accounts were built, rooms assigned, deposits made and contributors changed before.", "quantifier": "all histories of constructions (successful or not), deposits, room assignments and changes of contributor", "why_tests_cant": "histories and households are unbounded", "anchors": ["forecaster/canada/accounts/registered_account.py:RegisteredAccount.contributor", "forecaster/accounts/linked_limit.py:LinkedLimitAccount._merge_transactions", "forecaster/accounts/link.py:AccountLink"]}
{"id": "C102", "title": "Canadian tax with the shipped constants, in every year", "statement": "With the shipped constants and any province offered, Canadian tax on an income in any year is the 2017 schedule (15%, 20.5%, 26%, 29%, 33%) expressed in that year's money, once federally and once provincially, each less its own deduction and its credits at its credit rate and not below zero. Tax never falls when income rises and takes at most 66% of the extra income.", "quantifier": "all incomes, deductions, credits, years and inflation assumptions, all provinces", "why_tests_cant": "incomes, years and inflation assumptions are unbounded and the brackets of unlisted years are derived on demand", "anchors": ["forecaster/canada/constants.py:ConstantsCanada", "forecaster/canada/tax.py:TaxCanada.__init__", "forecaster/canada/tax.py:TaxCanadaJurisdiction.__init__", "forecaster/canada/tax.py:TaxCanada.__call__"]}
{"id": "C103", "title": "RRIF minimum withdrawals with the shipped table", "statement": "With the shipped constants, a minimum withdrawal is defined at every age once an RRSP has become a RRIF; it is a positive share of the balance that never falls as the contributor ages and never exceeds a fifth of the balance, so minimum withdrawals alone never empty the account: after n years at least (4/5)^n of it is left.", "quantifier": "all ages, conversion years, balances and numbers of years", "why_tests_cant": "ages, balances and numbers of years are unbounded; the rate comes from three different rules whose seams must agree", "anchors": ["forecaster/canada/constants.py:ConstantsCanada.RRSP_RRIF_WITHDRAWAL_MIN", "forecaster/canada/accounts/rrsp.py:RRSP.minimum_distribution"]}
{"id": "C104", "title": "The default strategies cover the household's accounts", "statement": "With the default settings, every account that the saving strategy puts money into is also drawn on by the withdrawal strategy, whatever accounts the household has; the default allocation follows the person's age; the default tax of the general (non-Canadian) settings is zero.", "quantifier": "all households, debt thresholds, strategies (ordered or weighted), ages, incomes and years", "why_tests_cant": "households, ages and years are unbounded", "anchors": ["forecaster/canada/settings.py:SettingsCanada", "forecaster/settings.py:Settings", "forecaster/strategy/transaction/strategy.py:TransactionStrategy._get_weight_key", "forecaster/strategy/allocation.py:AllocationStrategy"]}
{"id": "C105", "title": "A person's tax figures follow their accounts", "statement": "At any moment, a person's taxable income is this year's gross income plus what their accounts report as taxable now, and their tax deduction and tax credit are the totals their accounts report now; when the year closes these are the values the histories keep.", "quantifier": "all people and all histories of reads, account changes and year advances, in every order", "why_tests_cant": "reads, deposits and advances interleave arbitrarily and some figures are cached while others are not", "anchors": ["forecaster/person.py:Person.taxable_income", "forecaster/person.py:Person.tax_deduction", "forecaster/person.py:Person.tax_credit", "forecaster/ledger/recorded_property.py:recorded_property_cached"]}
{"id": "C106", "title": "The front of a priority list comes first; high-interest debts before discretionary saving", "statement": "When money is placed by a priority list: while an account of the list's first item (an account or a list of accounts, however nested), or any account that is itself an item of the list, can still take its minimum, accounts that occur only in later items get nothing; while it can take any more, they get no more than their own minimum. Likewise withdrawals draw on later items only once it has given all it can. Wherever an account stands in the list, or in a list within it and so on, and whatever else is in these lists, no money is left over while the account can take more, and no need is left uncovered while it can give more (if no limits are shared). In particular a transaction strategy gives no other account more than its minimum while a high-interest debt can be repaid further. All up to one unit of precision.", "quantifier": "all priority lists with any later items (nested lists, weighted groups, shared limits), all strategies, accounts, limits, amounts and precisions, and every maximum flow of least cost the solver may return", "why_tests_cant": "trees, limits and the solver's choice of optimum are unbounded; the order only emerges from edge weights in the flow graph", "anchors": ["forecaster/strategy/transaction/base.py:_add_node_ordered", "forecaster/strategy/transaction/graph.py:_sum_weight", "forecaster/strategy/transaction/strategy.py:TransactionStrategy.__call__"]}
{"id": "C107", "title": "A forecast's reported histories are the years' actual figures and account for its cash", "statement": "For every year before the last, a forecast's income, living-expenses, savings, principal, withdrawals and tax histories hold exactly what its sub-forecasts and accounts answered once that year's sub-forecasts had been called and before anything moved to the next year, whatever order the properties are recorded in; the last year's figures are read from the final state; no other year is reported; and recording does not alter the forecast. With the five sub-forecasts, the cash at any year's start is the initial cash plus reported income less reported living expenses, less what the saving plans and plus what the withdrawal plans moved, plus tax withheld less reported tax of the years before (plus the withholding booked by the withdrawal forecast).", "quantifier": "every household, strategies, set-iteration order and horizon", "why_tests_cant": "unbounded horizon; interaction of caching, recording order and the order of the yearly updates", "anchors": ["forecaster/forecast/base.py:Forecast.next_year", "forecaster/forecast/base.py:Forecast.income", "forecaster/forecast/base.py:Forecast.savings", "forecaster/forecast/base.py:Forecast.tax", "forecaster/ledger/base.py:Ledger.next_year"]}
{"id": "C108", "title": "An account's balance, rate and returns over the years, whatever is read or changed when", "statement": "Over any sequence of reading an account's balance, rate, transactions, returns and taxable income, adding transactions, assigning the balance, changing the rate or the compounding and moving to the next year: reading never changes what is shown later; the figures do not depend on the order in which properties are recorded; each year's balance is last year's balance, transactions and returns; a newly assigned rate applies from then on, and a change of compounding does not rewrite past growth; user inputs for balance and rate win; a missing rate raises when and only when a figure needs it.", "quantifier": "every account, rate (number, table or function), inputs, recording order and sequence of operations over any number of years", "why_tests_cant": "unbounded operation sequences mixing caching, recording and attribute changes", "anchors": ["forecaster/accounts/base.py:Account.balance", "forecaster/accounts/base.py:Account.rate", "forecaster/accounts/base.py:Account.rate_callable", "forecaster/accounts/base.py:Account.returns", "forecaster/accounts/base.py:Account.nper", "forecaster/accounts/base.py:Account.next_year", "forecaster/ledger/recorded_property.py:recorded_property_cached", "forecaster/ledger/base.py:Ledger.next_year"]}
{"id": "C109", "title": "A forecast neither creates nor destroys money", "statement": "Over any number of years of a forecast, a household's net worth (cash carried over plus the balances of its accounts) changes by exactly the gross income of its people, less living expenses, less tax owing, plus the returns its accounts report; saving, withdrawing, withholding and the settlement of taxes only move money around.", "quantifier": "every household, strategies, account rates, withholding and horizon", "why_tests_cant": "unbounded horizon; interaction of all sub-forecasts, the accounts' growth and the year-end carry-over", "anchors": ["forecaster/forecast/base.py:Forecast.next_year", "forecaster/forecast/base.py:Forecast.call_subforecasts", "forecaster/forecast/saving.py:SavingForecast", "forecaster/forecast/withdrawal.py:WithdrawalForecast", "forecaster/forecast/tax.py:TaxForecast.tax_adjustment", "forecaster/accounts/base.py:Account.balance", "forecaster/accounts/base.py:Account.returns", "forecaster/accounts/base.py:Account.next_year"]}
{"id": "C110", "title": "Money is taken out of an account when the account can afford it", "statement": "When a sub-forecast takes money out of an Account without strict timing, the withdrawal is recorded once, at the requested time or later in the year; it is placed at the earliest time from which the account would hold the amount for the rest of the year, so that the account is not overdrawn afterwards if that can be avoided, and at the requested time if there is no such time.", "quantifier": "every account (balance, growth rate, compounding, transactions), amount and requested time", "why_tests_cant": "real-valued growth between arbitrarily many transactions; interpolated times", "anchors": ["forecaster/forecast/subforecast.py:SubForecast._shift_when", "forecaster/forecast/subforecast.py:SubForecast._accum_account", "forecaster/forecast/subforecast.py:SubForecast._add_transaction", "forecaster/accounts/base.py:Account.max_outflow", "forecaster/accounts/base.py:Account.time_to_balance"]}
{"id": "C111", "title": "A person's figures over the years, whatever is read or changed", "statement": "Over any sequence of reads, assignments, deletions, changed raise rates, tax treatments, retirement dates and accounts, and new years, a Person's figures are those of the attributes in force: this year's gross income is last year's with this year's raise (0 after retirement), tax withheld follows from gross income, net income is gross income less tax withheld, inputs win over everything, and merely reading a figure changes nothing.", "quantifier": "every inputs dict, raise table, tax treatment, retirement year, sequence of operations, and iteration order of the recorded properties", "why_tests_cant": "all interleavings of reads, changes and new years of a caching object", "anchors": ["forecaster/person.py:Person.gross_income", "forecaster/person.py:Person.net_income", "forecaster/person.py:Person.raise_rate", "forecaster/person.py:Person.tax_withheld", "forecaster/person.py:Person.taxable_income", "forecaster/person.py:Person.__init__", "forecaster/ledger/base.py:Ledger.next_year", "forecaster/ledger/recorded_property.py:recorded_property"]}
{"id": "C112", "title": "Accounts calculate in high precision", "statement": "If high_precision is given to an Account and a Timing, and every amount, rate and time passed to them is a whole number, a number of the high-precision type or a documented text code, then every calculation (balance_at_time, returns, next_year, max_inflows, max_outflows, time_to_balance, Timing itself) succeeds exactly where it does without high_precision, gives numbers of the high-precision type only, and these have the same values as without it.", "quantifier": "every account, history of payments and new years, timing, limit, time of year, frequency, and mixture of whole and high-precision numbers", "why_tests_cant": "the type of every intermediate result depends on the types of all inputs so far, and a single float makes later arithmetic raise TypeError", "anchors": ["forecaster/accounts/base.py:Account", "forecaster/accounts/util.py:accumulation_function", "forecaster/accounts/util.py:accumulation_function_inverse", "forecaster/accounts/util.py:value_at_time", "forecaster/utility/timing.py:Timing.__init__", "forecaster/utility/timing.py:when_conv", "forecaster/utility/precision.py:HighPrecisionOptional"]}
{"id": "C113", "title": "Rounding does not spoil income tax", "statement": "Computed with floats or Decimals, where every operation rounds, tax is never negative, never falls when income rises and never rises with larger deductions or credits, also across bracket boundaries, for couples and households and summed over jurisdictions, and for brackets adjusted for inflation; and the tax on an amount is within the accumulated rounding error, a factor (1 +- u)^(m+2) for m brackets, of the exact progressive tax.", "quantifier": "every rounding that keeps order, zero and already-rounded numbers; every bracket table with non-negative rates; all incomes, deductions, credits, households and jurisdictions", "why_tests_cant": "all floats, all tables: a difference in the last digit between two ways of reaching a threshold would make tax fall with income", "anchors": ["forecaster/tax.py:Tax.tax_money", "forecaster/tax.py:Tax.add_accum", "forecaster/tax.py:Tax.marginal_bracket", "forecaster/tax.py:Tax.tax_brackets", "forecaster/tax.py:Tax.tax_people", "forecaster/tax.py:TaxMulti.tax_people"]}
{"id": "C114", "title": "Rounding does not spoil inflation adjustments", "statement": "Computed with floats or Decimals, where every operation rounds, inflation adjustments with inflation that is never negative never fall from year to year, are 1 for the base year, at least 1 looking forward and between 0 and 1 looking back; a later base year never gives a larger factor; the factor over n years is within a factor (1 +- u)^(2n) of the exact one, and adjusting forward and back gives 1 within one rounding error.", "quantifier": "every rounding that keeps order, zero and already-rounded numbers (for the error bounds: with relative error u); every inflation history; all pairs of years", "why_tests_cant": "all histories and all floats; a computed factor that dips in the last digit would break monotone plans only for particular rates", "anchors": ["forecaster/scenario.py:Scenario.accumulation_function", "forecaster/scenario.py:Scenario.inflation_adjust"]}
{"id": "C115", "title": "Rounding does not spoil timings", "statement": "Timing(when, frequency), computed with rounding, still gives exactly as many times as the frequency, in order, none of them outside the year or merged with another, each within a few rounding errors of its exact place, with equal positive weights that add up to 1 within one rounding error; and an amount spread over a timing of n entries is split in proportion to the weights, and adds up to the amount, up to a relative error (2n + 3)u.", "quantifier": "every rounding with relative error u above its smallest normal number; every frequency up to 1/(8u), every time of the year, every timing with non-negative weights, every amount that does not underflow", "why_tests_cant": "the keys of the dict are computed numbers: whether two of them collide depends on the frequency, the time and the number type", "anchors": ["forecaster/utility/timing.py:Timing.__init__", "forecaster/utility/timing.py:Timing.time_series", "forecaster/utility/timing.py:Timing._normalized"]}
{"id": "C116", "title": "Rounding does not spoil account balances", "statement": "Computed with rounding and a power function that may itself be inexact: the year-end balance is to the last digit the next year's opening balance (with an unchanged rate); a deposit never lowers, and a withdrawal never raises, the balance at any time, nor changes it before it is made; without withdrawals and with a non-negative rate the balance never is below the opening balance and returns are not negative; the transactions planned to reach a balance reach it within (4n + 12) units of relative error, so the largest withdrawals empty the account up to that; the largest deposits and withdrawals have the right sign and keep to the room that is left up to (2n + 3) units.", "quantifier": "every rounding, every power function that is not negative and at least 1 where it should be; all accounts, transactions, times, timings, targets, limits", "why_tests_cant": "errors accumulate over any number of transactions, and the library's pow is not exact; tests compare within a fixed tolerance", "anchors": ["forecaster/accounts/base.py:Account.balance_at_time", "forecaster/accounts/base.py:Account.balance", "forecaster/accounts/base.py:Account.returns", "forecaster/accounts/base.py:Account.add_transaction", "forecaster/accounts/base.py:Account.transactions_to_balance", "forecaster/accounts/base.py:Account.max_outflows", "forecaster/accounts/base.py:Account.max_inflows", "forecaster/accounts/util.py:accumulation_function", "forecaster/accounts/util.py:value_at_time"]}
{"id": "C117", "title": "TransactionDict maps accounts, dicts and numbers each to its own value", "statement": "A TransactionDict takes accounts, plain (unhashable) dicts and numbers as keys: after any history of reads, writes and clears, reading a key gives the value last written for that very key since the last clear, or the default; iterating gives every key used since, as the object it was used with, once, in the order of first use; keys(), in, get, del and items agree with that.", "quantifier": "every sequence of reads, writes and clears; every assignment of ids; every number and mixture of keys", "why_tests_cant": "aliasing of unhashable keys by id(): every history and every assignment of ids", "anchors": ["forecaster/forecast/subforecast.py:TransactionDict.__getitem__", "forecaster/forecast/subforecast.py:TransactionDict.__setitem__", "forecaster/forecast/subforecast.py:TransactionDict.__iter__", "forecaster/forecast/subforecast.py:TransactionDict.keys"]}
{"id": "C118", "title": "Taxes are computed and settled in high precision", "statement": "With high_precision given, a tax treatment whose numbers are of the high-precision type or whole numbers answers every question (tax on an amount, a person, a couple, a group; marginal rates and brackets; deductions) exactly as it would with plain numbers - never a TypeError for mixing floats in - and every tax is of the high-precision type, also summed over jurisdictions, in any order of questions; the refund or payment of the year is then paid out at the tax treatment's timing: the money available changes by exactly the adjustment, each time getting its share.", "quantifier": "every table of brackets, deductions and credits, every inflation adjustment, every sequence of questions, every timing and adjustment", "why_tests_cant": "mixing of number types fails only on the paths a test takes; must hold for all tables, histories of questions (the bracket cache) and timings", "anchors": ["forecaster/tax.py:Tax.__init__", "forecaster/tax.py:Tax.tax_money", "forecaster/tax.py:Tax.tax_people", "forecaster/tax.py:Tax.refund_timing", "forecaster/tax.py:TaxMulti.__call__", "forecaster/canada/tax.py:TaxCanadaJurisdiction.__init__", "forecaster/utility/inflation.py:build_inflation_adjust", "forecaster/forecast/base.py:Forecast._carryover_tax"]}
{"id": "C119", "title": "Inflation, income and registered accounts in high precision", "statement": "With high_precision given, the inflation adjustments of a Scenario, the income of a Person over the years and the room, accruals, minimum distributions and withholding taxes of RRSPs and TFSAs are exactly what they would be with plain numbers - never a TypeError for mixing floats in - and are of the high-precision type; the constants (rates, limits, withholding tables) are converted, so they may be floats.", "quantifier": "every inflation series, raise series, salary input, set of constants, birth date, year, balance, room and flow", "why_tests_cant": "mixing of number types fails only on the paths a test takes; must hold for all years inside and outside the tables, in both directions, and all histories", "anchors": ["forecaster/scenario.py:Scenario.accumulation_function", "forecaster/scenario.py:InflationAdjust.__call__", "forecaster/person.py:Person.gross_income", "forecaster/person.py:Person.raise_rate_callable", "forecaster/canada/accounts/rrsp.py:RRSP.__init__", "forecaster/canada/accounts/rrsp.py:RRSP.next_contribution_room", "forecaster/canada/accounts/rrsp.py:RRSP.minimum_distribution", "forecaster/canada/accounts/rrsp.py:RRSP.tax_withheld", "forecaster/canada/accounts/tfsa.py:TFSA._infer_initial_contribution_rm", "forecaster/canada/accounts/tfsa.py:TFSA.next_contribution_room"]}
{"id": "C120", "title": "Living expenses and asset allocations in high precision", "statement": "With high_precision given, living-expense strategies (alone or in a schedule for working years and retirement), the sharing of living expenses between people and the rates of return of asset-allocation strategies give what they would with plain numbers, each strategy using its own base amount, rate, bounds and target, without a TypeError, and in the high-precision type.", "quantifier": "every strategy, schedule, set of people, scenario, year, and every program that builds and calls any number of strategies in any order", "why_tests_cant": "strategies of one class share cached attributes, so the result of a call depends on the whole history of constructions and calls", "anchors": ["forecaster/strategy/gross_transaction.py:LivingExpensesStrategy.__call__", "forecaster/strategy/gross_transaction.py:LivingExpensesStrategySchedule.__call__", "forecaster/forecast/living_expenses.py:LivingExpensesForecast.__call__", "forecaster/strategy/allocation.py:AllocationStrategy.__call__", "forecaster/strategy/allocation.py:AllocationStrategy.rate_function", "forecaster/utility/precision.py:HighPrecisionOptionalPropertyCached"]}
{"id": "C121", "title": "Recorded properties, however they are declared and inherited", "statement": "A property declared with @recorded_property or @recorded_property_cached, and given getters, setters and deleters in any order, does what its last getter, setter and deleter say: reading gives this year's recorded value or what the getter computes (then recorded, if cached), user inputs win over assigning and deleting, and x_history gives the recorded years and this year's. Every recorded property of a class, its own or inherited, is recorded for each object, starting with the user's inputs, and nothing else is.", "quantifier": "every sequence of decorators, all getters, setters and deleters (which may raise and change the object), all classes and method resolution orders, all objects", "why_tests_cant": "decorators wrap the functions of earlier decorators, so each sequence makes different code; tests cover the few sequences and classes the project declares", "anchors": ["forecaster/ledger/recorded_property.py:recorded_property.__init__", "forecaster/ledger/recorded_property.py:recorded_property_cached.__init__", "forecaster/ledger/base.py:LedgerType.__init__", "forecaster/ledger/base.py:Ledger.__init__"]}
{"id": "C122", "title": "Tax on people in several jurisdictions, and on a Canadian household", "statement": "The tax of a set of people in several jurisdictions is the sum, over the jurisdictions and over the people, of what each person owes alone in each, whatever was asked before, whoever is married to whom, and in whatever order sets are visited; amounts given per jurisdiction and person count where they are given. For one person it is the sum over the jurisdictions, whichever method is used. The combined deduction, credit and credit rate are those of all jurisdictions. With the shipped Canadian constants, in every year, a household pays the sum of its members' federal and provincial tax on the indexed 2017 schedule, at least 0 and at most 66% of their incomes.", "quantifier": "every set of people, spouse relation, visiting order, list of jurisdictions, choice of given amounts, history of earlier calls, year and consistent inflation assumption", "why_tests_cant": "people, marriages, orders, histories and years are unbounded and the bracket tables are caches filled by earlier calls", "anchors": ["forecaster/tax.py:TaxMulti.__call__", "forecaster/tax.py:TaxMulti.tax_person", "forecaster/tax.py:TaxMulti.tax_people", "forecaster/tax.py:TaxMulti.tax_spouses", "forecaster/canada/tax.py:TaxCanada.__call__", "forecaster/canada/tax.py:TaxCanadaJurisdiction.credit"]}
{"id": "C123", "title": "A forecast that uses the shipped strategies stays within its means", "statement": "When the saving and withdrawal strategies are TransactionStrategies, then in every year of every forecast the saving forecast moves no more than the cash left after income and living expenses and the withdrawal forecast no more than is then left, each in one direction: together they never turn a surplus into a shortfall nor a shortfall into a surplus, and do nothing within a cent. Contributions follow the saving strategy's priorities and withdrawals the withdrawal strategy's. The books stay balanced: net worth changes by income, living expenses, tax and returns only.", "quantifier": "every household, set of accounts, weights, strategies, set iteration order, flow chosen by the solver, number of years, and any way balances and limits evolve", "why_tests_cant": "schedules, accounts and years are unbounded and the strategies depend on everything that happened before", "anchors": ["forecaster/strategy/transaction/strategy.py:TransactionStrategy.__call__", "forecaster/strategy/transaction/base.py:TransactionTraversal.__call__", "forecaster/forecast/saving.py:SavingForecast.__call__", "forecaster/forecast/withdrawal.py:WithdrawalForecast.__call__", "forecaster/forecast/base.py:Forecast.call_subforecasts"]}
{"id": "C124", "title": "A forecast runs short only when its accounts are empty", "statement": "When the saving and withdrawal strategies are TransactionStrategies and no account withholds tax, a year ends short of money only if every account on the strategies' lists has given all it holds (but for less than a cent), and ends with money left only if every account on the lists has taken all it has room for. Within a plan: an amount to withdraw (to save) is met to the cent unless every account on the list has given (taken) all it can.", "quantifier": "every household, set of accounts, classes, weights, debts, strategies, set iteration order, optimal flow, number of years, and any way balances and limits evolve", "why_tests_cant": "accounts, years, limits and the solver's choice among optimal flows are unbounded", "anchors": ["forecaster/strategy/transaction/strategy.py:TransactionStrategy.__call__", "forecaster/strategy/transaction/base.py:TransactionTraversal.__call__", "forecaster/forecast/saving.py:SavingForecast.__call__", "forecaster/forecast/withdrawal.py:WithdrawalForecast.__call__", "forecaster/forecast/base.py:Forecast.call_subforecasts"]}
{"id": "C125", "title": "The taxes of a Canadian household's forecast", "statement": "When a forecast's tax treatment is TaxCanada (British Columbia), the tax it reports for every year before the last is the sum, over the household, of each member's federal and provincial tax on that year's income, deductions and credits, with the 2017 brackets and amounts in that year's money (as C122 gives it), whatever the treatment was asked before; it is between 0 and 66% of the household's income; and the next year starts with this year's cash plus what was withheld less exactly that tax.", "quantifier": "every household, marriage relation, accounts, strategies, horizon, set iteration order, consistent inflation and history of earlier tax questions", "why_tests_cant": "incomes, years, inflation paths and earlier calls are unbounded", "anchors": ["forecaster/forecast/tax.py:TaxForecast.tax_owing", "forecaster/canada/tax.py:TaxCanada.__call__", "forecaster/canada/forecaster.py:ForecasterCanada", "forecaster/forecast/base.py:Forecast.next_year"]}
{"id": "C126", "title": "A forecast's transactions in high precision", "statement": "When a sub-forecast is given high_precision (Decimal, say), every transaction it records is a high-precision number, and the accounts and records hold exactly the amounts, at exactly the times, that they would hold without it; no computation mixes a float and a high-precision number; undoing the transactions and adding up what is available work the same way. Without high_precision no amount becomes a high-precision number. Amounts and times given as ordinary numbers are converted.", "quantifier": "every sequence of transactions with any amounts, timings, accounts or cash-flow dicts, strict or not, any earlier contents, with and without high_precision", "why_tests_cant": "amounts, times, contents and sequences of transactions are unbounded", "anchors": ["forecaster/forecast/subforecast.py:SubForecast.add_transaction", "forecaster/forecast/subforecast.py:SubForecast.add_transactions", "forecaster/forecast/subforecast.py:SubForecast.undo_transactions", "forecaster/utility/timing.py:Timing", "forecaster/utility/precision.py:HighPrecisionOptional"]}
