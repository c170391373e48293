{"id": "C01", "title": "A swap creates and loses no token unit", "statement": "For every successful swap (exact-in, partial-fill or exact-out, buy or sell, any fee mode) the amount taken from the trader equals the increase of the pool's input reserve plus the fees charged on the input side, and the decrease of the pool's output reserve equals the amount sent to the trader plus the fees charged on the output side; fees are charged on one side only and are exactly trading + protocol + referral fee.", "quantifier": "every config, pool state, amount, direction, swap mode, referral flag and point in time for which the swap succeeds", "why_tests_cant": "The conservation law quantifies over all amounts and all curve shapes; a rounding slip of one unit shows only for particular amounts.", "anchors": ["programs/dynamic-bonding-curve/src/state/virtual_pool.rs:get_swap_result_from_exact_input", "programs/dynamic-bonding-curve/src/state/virtual_pool.rs:get_swap_result_from_partial_input", "programs/dynamic-bonding-curve/src/state/virtual_pool.rs:get_swap_result_from_exact_output", "programs/dynamic-bonding-curve/src/state/virtual_pool.rs:apply_swap_result", "programs/dynamic-bonding-curve/src/instructions/swap/ix_swap.rs:handle_swap_wrapper"]}
{"id": "C02", "title": "Exact-in spends exactly the amount given and honours the minimum", "statement": "A successful exact-in swap takes exactly amount_in from the trader, leaves no unspent remainder, and sends the trader at least minimum_amount_out.", "quantifier": "every config, pool state, amount_in, minimum_amount_out, direction, time", "why_tests_cant": "Must hold for every amount and every curve; boundary crossings between curve segments are the risky inputs.", "anchors": ["programs/dynamic-bonding-curve/src/state/virtual_pool.rs:get_swap_result_from_exact_input", "programs/dynamic-bonding-curve/src/instructions/swap/swap_exact_in.rs"]}
{"id": "C03", "title": "Exact-out delivers exactly the amount asked and honours the maximum", "statement": "A successful exact-out swap sends the trader exactly amount_out and takes at most maximum_amount_in.", "quantifier": "every config, pool state, amount_out, maximum_amount_in, direction, time", "why_tests_cant": "Depends on inverse fee arithmetic for all amounts.", "anchors": ["programs/dynamic-bonding-curve/src/state/virtual_pool.rs:get_swap_result_from_exact_output", "programs/dynamic-bonding-curve/src/instructions/swap/swap_exact_out.rs"]}
{"id": "C04", "title": "Partial fill never charges more than offered", "statement": "A successful partial-fill swap takes at most amount_in from the trader and sends at least minimum_amount_out; whatever is not consumed stays with the trader. The one exception is a purchase while the rate limiter is in force, where the rounding of the inverse fee formula can take more than was offered: at most amount_in/90000 + 31000 units more, and at most amount_in/4000000 + 500 units more without a dynamic fee. What reaches the reserve never exceeds amount_in.", "quantifier": "every config, pool state, amount_in, direction, time", "why_tests_cant": "The charge is recomputed by an inverse fee formula whose rounding differs from the forward one; only a proof covers every amount.", "anchors": ["programs/dynamic-bonding-curve/src/state/virtual_pool.rs:get_swap_result_from_partial_input", "programs/dynamic-bonding-curve/src/instructions/swap/swap_partial_fill.rs"]}
{"id": "C05", "title": "Fee rate is always between the floor and 99%", "statement": "The total fee numerator used by any swap is at most 990000000/1e9 and, for every config accepted at creation, the base fee numerator is never below 2500000/1e9 (0.25%); hence a swap never charges more than 99% (rounded up) of the amount the fee applies to.", "quantifier": "every accepted config, point in time, amount, volatility state", "why_tests_cant": "Fee schedules are functions of time, amount and volatility; tests sample points.", "anchors": ["programs/dynamic-bonding-curve/src/state/config.rs:get_total_fee_numerator_from_included_fee_amount", "programs/dynamic-bonding-curve/src/state/config.rs:get_total_fee_numerator_from_excluded_fee_amount", "programs/dynamic-bonding-curve/src/base_fee/"]}
{"id": "C06", "title": "Fee split between protocol, referral and partner side is exact", "statement": "For every fee amount, trading + protocol + referral fee equals the fee charged, protocol and referral together are floor(20%) of it, referral is floor(20%) of that when a referral account is given and zero otherwise.", "quantifier": "every fee amount and referral flag", "why_tests_cant": "Exactness for every u64 amount.", "anchors": ["programs/dynamic-bonding-curve/src/state/config.rs:PoolFeesConfig::split_fees", "programs/dynamic-bonding-curve/src/state/config.rs:get_fee_on_amount"]}
{"id": "C07", "title": "Partner/creator split is exact", "statement": "For every trading fee and every creator percentage at most 100, creator share is floor(percentage of fee), partner share is the rest, and both sum to the fee.", "quantifier": "every amount, every percentage", "why_tests_cant": "All amounts.", "anchors": ["programs/dynamic-bonding-curve/src/state/config.rs:split_partner_and_creator_fee", "programs/dynamic-bonding-curve/src/state/virtual_pool.rs:apply_swap_result"]}
{"id": "C08", "title": "Fees are taken in the configured token", "statement": "With quote-only collection every fee is in quote token; with output-token collection fees are in the output token; the referral fee is paid from the vault of the same token and the fee counters that grow are those of the same token.", "quantifier": "every config, direction, swap", "why_tests_cant": "History-wide: a counter of the other token never moves on any swap.", "anchors": ["programs/dynamic-bonding-curve/src/state/fee.rs:FeeMode", "programs/dynamic-bonding-curve/src/state/virtual_pool.rs:apply_swap_result", "programs/dynamic-bonding-curve/src/instructions/swap/ix_swap.rs"]}
{"id": "C09", "title": "Price stays inside the curve", "statement": "In every reachable pool the sqrt price is between the config's start price and the config's migration price.", "quantifier": "every accepted config and every history of instructions", "why_tests_cant": "Invariant over unbounded histories.", "anchors": ["programs/dynamic-bonding-curve/src/state/virtual_pool.rs", "programs/dynamic-bonding-curve/src/curve.rs"]}
{"id": "C10", "title": "Buys never lower and sells never raise the price", "statement": "For every successful swap: next price >= current price when quote is paid in, next price <= current price when base is paid in.", "quantifier": "every config, state, mode, amount", "why_tests_cant": "All inputs, all rounding cases.", "anchors": ["programs/dynamic-bonding-curve/src/state/virtual_pool.rs", "programs/dynamic-bonding-curve/src/curve.rs"]}
{"id": "C11", "title": "Rounding always favours the pool", "statement": "For every successful swap the quote reserve changes by at least the exact area under the curve between old and new price, and the base reserve by at least the exact base amount of that price move (both as exact rationals, no rounding).", "quantifier": "every config, state, mode, amount", "why_tests_cant": "Relates integer rounding to exact rational curve for all inputs.", "anchors": ["programs/dynamic-bonding-curve/src/curve.rs", "programs/dynamic-bonding-curve/src/state/virtual_pool.rs"]}
{"id": "C12", "title": "No sequence of swaps extracts value from the pool", "statement": "Take any history of swaps by any traders between two moments: it is impossible that the pool ends with at most the base and at most the quote it had and strictly less of one of them; in particular a round trip never profits.", "quantifier": "every accepted config, every finite sequence of swaps with any amounts, modes and times", "why_tests_cant": "Unbounded sequences.", "anchors": ["programs/dynamic-bonding-curve/src/state/virtual_pool.rs", "programs/dynamic-bonding-curve/src/curve.rs"]}
{"id": "C13", "title": "Quote reserve always covers the curve", "statement": "In every reachable pool the quote reserve is at least the sum over curve segments below the current price of the segment area rounded up; hence every holder's sell can be paid: no sell within the curve fails for lack of quote reserve.", "quantifier": "every accepted config, every history", "why_tests_cant": "Invariant over unbounded histories with mixed roundings.", "anchors": ["programs/dynamic-bonding-curve/src/state/virtual_pool.rs", "programs/dynamic-bonding-curve/src/curve.rs", "programs/dynamic-bonding-curve/src/params/liquidity_distribution.rs"]}
{"id": "C14", "title": "Reaching the migration price completes the curve", "statement": "In every reachable pool, if the price equals the migration price then quote reserve >= migration threshold, i.e. a pool is never stuck at the end of the curve without being able to migrate; conversely an incomplete pool's price is strictly below the migration price.", "quantifier": "every accepted config, every history", "why_tests_cant": "Requires agreement of two different computations (threshold price search at config creation and swaps) for all curves.", "anchors": ["programs/dynamic-bonding-curve/src/params/liquidity_distribution.rs:get_migration_threshold_price", "programs/dynamic-bonding-curve/src/state/virtual_pool.rs:is_curve_complete"]}
{"id": "C15", "title": "Completion is final", "statement": "Once quote reserve reaches the threshold every later swap fails, and reserves and price never change again.", "quantifier": "every history after completion", "why_tests_cant": "All later instruction sequences.", "anchors": ["programs/dynamic-bonding-curve/src/instructions/swap/ix_swap.rs", "programs/dynamic-bonding-curve/src/state/virtual_pool.rs:is_curve_complete"]}
{"id": "C16", "title": "A completing swap always leaves enough base to migrate", "statement": "For every accepted config, the base vault at completion covers the migration base amount, the vested amount and all unclaimed base fees, so no swap can fail with InsufficientLiquidityForMigration.", "quantifier": "every accepted config, every history", "why_tests_cant": "Relates supply computed at creation to worst-case rounding over histories.", "anchors": ["programs/dynamic-bonding-curve/src/instructions/swap/ix_swap.rs", "programs/dynamic-bonding-curve/src/instructions/partner/ix_create_config.rs", "programs/dynamic-bonding-curve/src/state/config.rs:get_initial_base_supply"]}
{"id": "C17", "title": "Vaults are always solvent", "statement": "At every reachable state before migration the base vault holds at least base reserve + unclaimed base fees and the quote vault at least quote reserve + unclaimed quote fees; after migration and after any order of claims the vaults still cover every remaining entitlement (unclaimed fees, un-withdrawn surplus, un-withdrawn migration fee, protocol migration fee).", "quantifier": "every accepted config, every interleaving of swaps, claims, withdrawals, locker creation, migration and donations", "why_tests_cant": "Interleavings are unbounded.", "anchors": ["programs/dynamic-bonding-curve/src/state/virtual_pool.rs", "programs/dynamic-bonding-curve/src/instructions/"]}
{"id": "C18", "title": "Claims are bounded and conserved", "statement": "A fee claim pays at most the requested maximum and at most the unclaimed amount, and at any time unclaimed + already claimed trading fees equal the fees accrued by swaps for that party and token.", "quantifier": "every history", "why_tests_cant": "Unbounded interleavings of swaps and claims.", "anchors": ["programs/dynamic-bonding-curve/src/state/virtual_pool.rs:claim_partner_trading_fee", "programs/dynamic-bonding-curve/src/state/virtual_pool.rs:claim_creator_trading_fee", "programs/dynamic-bonding-curve/src/state/virtual_pool.rs:claim_protocol_base_fee", "programs/dynamic-bonding-curve/src/state/virtual_pool.rs:claim_protocol_quote_fee_and_surplus"]}
{"id": "C19", "title": "Protocol quote claim exceeds its cap only by the one-off surplus", "statement": "claim_protocol_fee / zap_protocol_fee pays at most max_quote_amount plus, the first time after completion only, the protocol share of the surplus.", "quantifier": "every history", "why_tests_cant": "History property.", "anchors": ["programs/dynamic-bonding-curve/src/state/virtual_pool.rs:claim_protocol_quote_fee_and_surplus"]}
{"id": "C20", "title": "Surplus is split completely and each share is paid at most once", "statement": "After completion partner, creator and protocol shares of the surplus sum exactly to quote reserve - threshold, and over any history each is paid at most once, and none before completion.", "quantifier": "every history", "why_tests_cant": "History property with three independent claimants.", "anchors": ["programs/dynamic-bonding-curve/src/state/virtual_pool.rs:get_partner_surplus", "programs/dynamic-bonding-curve/src/state/virtual_pool.rs:get_creator_surplus", "programs/dynamic-bonding-curve/src/state/virtual_pool.rs:get_protocol_surplus"]}
{"id": "C21", "title": "Migration fee is split completely and each share is paid at most once", "statement": "Quote deposited for migration + migration fee = threshold, partner share + creator share = migration fee, and over any history each share is paid at most once and only after completion and only to the entitled signer.", "quantifier": "every config, every history", "why_tests_cant": "All percentages and thresholds, all histories.", "anchors": ["programs/dynamic-bonding-curve/src/state/config.rs:get_migration_quote_amount", "programs/dynamic-bonding-curve/src/state/config.rs:get_migration_fee_distribution", "programs/dynamic-bonding-curve/src/instructions/migration/ix_withdraw_migration_fee.rs"]}
{"id": "C22", "title": "Pool creation fee is split completely and paid at most once", "statement": "Protocol share (floor 10%) + partner share = pool creation fee; over any history each is paid at most once and the pool account never drops below its rent-exempt minimum.", "quantifier": "every config, every history", "why_tests_cant": "Histories.", "anchors": ["programs/dynamic-bonding-curve/src/state/config.rs:split_pool_creation_fee", "programs/dynamic-bonding-curve/src/instructions/operator/ix_claim_protocol_pool_creation_fee.rs", "programs/dynamic-bonding-curve/src/instructions/partner/ix_claim_partner_pool_creation_fee.rs"]}
{"id": "C23", "title": "Leftover withdrawal is once-only and never touches fees", "statement": "withdraw_leftover succeeds only after the migrated pool exists, only for fixed-supply configs, at most once, and leaves in the base vault exactly the unclaimed trading fees and protocol migration fee.", "quantifier": "every history", "why_tests_cant": "Interleavings of claims before/after.", "anchors": ["programs/dynamic-bonding-curve/src/instructions/migration/withdraw_leftover.rs"]}
{"id": "C24", "title": "Migration progress only moves forward along legal edges", "statement": "Progress goes pre-bonding -> (post-bonding ->) locked-vesting -> created-pool, never backwards; it leaves pre-bonding only when the curve completes; post-bonding is visited iff the config has a locked vesting; created-pool is reached at most once.", "quantifier": "every history", "why_tests_cant": "All instruction orders.", "anchors": ["programs/dynamic-bonding-curve/src/state/virtual_pool.rs:MigrationProgress", "programs/dynamic-bonding-curve/src/instructions/swap/ix_swap.rs", "programs/dynamic-bonding-curve/src/instructions/migration/"]}
{"id": "C25", "title": "Migrated DAMM v1 LP tokens are handed out at most once each", "statement": "Over any history of lock and claim calls by partner and creator, total LP tokens moved out never exceed the LP tokens minted at migration; each of the four entitlements is paid at most once and only to its owner.", "quantifier": "every history, including partner == creator", "why_tests_cant": "Histories with identity coincidences.", "anchors": ["programs/dynamic-bonding-curve/src/instructions/migration/meteora_damm/"]}
{"id": "C26", "title": "Liquidity distribution is complete", "statement": "For every liquidity amount and every accepted percentage set, the partner and creator unlocked, permanently locked and vested parts sum exactly to the amount and each part except the creator's unlocked one is the floor of its percentage.", "quantifier": "every config and liquidity amount", "why_tests_cant": "All amounts.", "anchors": ["programs/dynamic-bonding-curve/src/state/config.rs:get_liquidity_distribution"]}
{"id": "C27", "title": "Second-position adjustment keeps totals and never unlocks more", "statement": "Adjusting a position's distribution to the actually added liquidity keeps parts summing to the new total, never increases the unlocked part of a position that has any locked share, and splits the locked part in the configured proportion.", "quantifier": "every distribution and amount", "why_tests_cant": "All amounts.", "anchors": ["programs/dynamic-bonding-curve/src/state/config.rs:LiquidityDistributionItem::adjust_liquidity"]}
{"id": "C28", "title": "At least 10% of migrated liquidity stays locked for a day", "statement": "Every config accepted at creation has at least 1000 bps of liquidity locked one day after migration.", "quantifier": "every accepted config", "why_tests_cant": "All parameter combinations.", "anchors": ["programs/dynamic-bonding-curve/src/state/config.rs:get_total_liquidity_locked_bps_at_n_seconds", "programs/dynamic-bonding-curve/src/instructions/partner/ix_create_config.rs", "programs/dynamic-bonding-curve/src/utils/damm_v2_utils.rs"]}
{"id": "C29", "title": "Linear fee schedule never rises and never goes below its floor", "statement": "For every accepted linear schedule the base fee is cliff at activation, non-increasing in time, never below the validated minimum, and constant after the last period.", "quantifier": "every accepted config, all times", "why_tests_cant": "All times.", "anchors": ["programs/dynamic-bonding-curve/src/base_fee/fee_scheduler.rs", "programs/dynamic-bonding-curve/src/math/fee_math.rs"]}
{"id": "C30", "title": "Exponential fee schedule never rises, never fails and never goes below its floor", "statement": "For every accepted exponential schedule the base fee is defined at every time, at most the cliff, non-increasing in time although computed by truncating fixed-point exponentiation, and at least the validated minimum.", "quantifier": "every accepted config, all times", "why_tests_cant": "Monotonicity of a truncated square-and-multiply is a numeric fact over all exponents and bases.", "anchors": ["programs/dynamic-bonding-curve/src/math/fee_math.rs:pow", "programs/dynamic-bonding-curve/src/math/fee_math.rs:get_fee_in_period", "programs/dynamic-bonding-curve/src/base_fee/fee_scheduler.rs"]}
{"id": "C31", "title": "Rate limiter charges progressively and never below the cliff", "statement": "With an active rate limiter the fee of a buy of a given quote amount is the sum over its units of the progressive marginal rate (cliff for the first reference amount, one increment more for each further one, at most 99%), rounded up: never less, and without a dynamic fee at most one unit per 1e9 units (or part) more. A partially filled buy and a buy of a given output, whose fee the program computes backwards through a quadratic, are charged the same progressive fee on what they pay, up to 1/5000000 of the payment and 601 units. The schedule never falls as the amount grows, and no swap pays less than the cliff rate; sells and buys outside the window pay exactly the cliff rate. (Literal monotonicity of the charged fee is false: the rate is rounded to 1e-9, so one more unit can lower the charge.)", "quantifier": "every accepted config, amount, time", "why_tests_cant": "All amounts; the formula is quadratic with caps.", "anchors": ["programs/dynamic-bonding-curve/src/base_fee/fee_rate_limiter.rs"]}
{"id": "C32", "title": "Included/excluded fee computation round-trips", "statement": "For every numerator and every net amount, if grossing up succeeds, deducting the fee from the grossed-up amount gives back exactly the net amount and the same fee, and every smaller gross amount leaves less; deducting first and grossing up again never asks for more than the original.", "quantifier": "every amount and numerator", "why_tests_cant": "All amounts.", "anchors": ["programs/dynamic-bonding-curve/src/state/config.rs:get_included_fee_amount", "programs/dynamic-bonding-curve/src/state/config.rs:get_excluded_fee_amount"]}
{"id": "C33", "title": "Volatility accumulator and dynamic fee are bounded", "statement": "In every reachable pool the volatility accumulator and reference never exceed the configured maximum; the dynamic part of the fee is therefore defined and at most (max accumulator * bin step)^2 * control / 1e11 rounded up; and no price move inside the price bounds makes the volatility update overflow, so the dynamic fee never makes a swap fail.", "quantifier": "every accepted config, every history of swaps", "why_tests_cant": "Histories of prices and times.", "anchors": ["programs/dynamic-bonding-curve/src/state/fee.rs", "programs/dynamic-bonding-curve/src/state/config.rs:DynamicFeeConfig", "programs/dynamic-bonding-curve/src/params/fee_parameters.rs"]}
{"id": "C34", "title": "Volatility reference rules", "statement": "Within the filter period the references stay unchanged, between filter and decay period the volatility reference becomes the configured reduction of the accumulator, after the decay period it is zero; the accumulator itself is never changed by a time update.", "quantifier": "every state and time", "why_tests_cant": "All times and states.", "anchors": ["programs/dynamic-bonding-curve/src/state/fee.rs:update_references"]}
{"id": "C35", "title": "Integer square root is exact", "statement": "sqrt returns the floor of the square root for every 256-bit value.", "quantifier": "every 256-bit value", "why_tests_cant": "2^256 inputs.", "anchors": ["programs/dynamic-bonding-curve/src/math/utils_math.rs:sqrt_u256"]}
{"id": "C36", "title": "Fixed-point power is accurate", "statement": "For every base below one and exponent below 2^19 the computed power never exceeds the exact power and is below it by at most a stated number of units in the last place; a base of one or more and a negative exponent are the reciprocals of such a power.", "quantifier": "every base and exponent", "why_tests_cant": "All inputs.", "anchors": ["programs/dynamic-bonding-curve/src/math/fee_math.rs:pow"]}
{"id": "C37", "title": "Accepted configs are well formed", "statement": "Every config that create_config accepts has 1..16 strictly increasing curve points with positive liquidity inside the price bounds, distribution percentages summing to 100, a positive threshold, a migration price strictly inside the bounds and on the curve, and a positive migration base amount. It stores the terms it was given, and if the supply is fixed it names a receiver for the leftover.", "quantifier": "every parameter set", "why_tests_cant": "All parameter combinations.", "anchors": ["programs/dynamic-bonding-curve/src/instructions/partner/ix_create_config.rs"]}
{"id": "C38", "title": "Initial supply covers the whole life of the pool", "statement": "For every accepted config the base supply minted at pool creation is at least the base sold along the curve up to the migration price plus the migration base amount plus the locked vesting amount, and fits in u64; for fixed supply the post-migration supply never exceeds the pre-migration supply. (Not guaranteed: that a pool can be created from every accepted config.)", "quantifier": "every accepted config", "why_tests_cant": "All parameter combinations.", "anchors": ["programs/dynamic-bonding-curve/src/state/config.rs:get_initial_base_supply", "programs/dynamic-bonding-curve/src/instructions/partner/ix_create_config.rs"]}
{"id": "C39", "title": "Only the entitled party can take funds", "statement": "Over any history, partner fees/surplus go out only on the fee claimer's signature, creator fees/surplus only on the current creator's, protocol fees only through an operator holding the right permission.", "quantifier": "every history and signer", "why_tests_cant": "All signers and orders.", "anchors": ["programs/dynamic-bonding-curve/src/access_control.rs", "programs/dynamic-bonding-curve/src/lib.rs"]}
{"id": "C40", "title": "Operator permissions are exactly the granted bits", "statement": "An operator account created with a permission mask can perform an operation iff the corresponding bit is set and the signer is the whitelisted address; masks with unknown bits are rejected; closed accounts give no permission.", "quantifier": "every mask, signer, operation", "why_tests_cant": "All masks.", "anchors": ["programs/dynamic-bonding-curve/src/state/operator.rs", "programs/dynamic-bonding-curve/src/instructions/admin/"]}
{"id": "C41", "title": "First-swap minimum fee is only available to the creation bundle", "statement": "A swap is charged the minimum base fee instead of the scheduled one only if the config enables it, no swap has succeeded before on that pool, no referral account is used, and an earlier top-level instruction of the same transaction initialised that pool; hence at most one swap per pool ever gets it.", "quantifier": "every history and every transaction", "why_tests_cant": "Histories and transaction layouts.", "anchors": ["programs/dynamic-bonding-curve/src/instructions/swap/ix_swap.rs:validate_contain_initialize_pool_ix_and_no_cpi"]}
{"id": "C42", "title": "Rate-limited swaps cannot be bundled", "statement": "No transaction, however its cross-program calls are nested, performs two successful buys on one pool while the rate limiter is in force; earlier top-level instructions of this program never swap on that pool and foreign ones never mention it. So a transaction cannot split a large buy to evade the progressive fee.", "quantifier": "every transaction: every list of trees of nested instructions", "why_tests_cant": "All transaction layouts.", "anchors": ["programs/dynamic-bonding-curve/src/instructions/swap/ix_swap.rs:validate_single_swap_instruction"]}
{"id": "C43", "title": "SDK quotes equal on-chain results", "statement": "Whenever a swap executes, the matching off-chain quote function, given the accounts as they were before the swap, the same time and the right first-swap flag, succeeds and returns the amount paid, the amount received, the new price, the part entering the reserve and the trading, protocol and referral fees that the swap applies, even though it skips the volatility update the program does first. (The exact-output quote has no referral parameter and reports the protocol and referral shares as one.) Conversely, when a quote succeeds, a swap sent at that time whose limits the quote meets executes, if the single-swap rule is respected and the 64-bit counters have room. Quotes are refused for a completed curve and a zero amount.", "quantifier": "every config, state, amount, time", "why_tests_cant": "All states.", "anchors": ["dynamic-bonding-curve-sdk/src/quote_exact_in.rs", "dynamic-bonding-curve-sdk/src/quote_exact_out.rs", "dynamic-bonding-curve-sdk/src/quote_partial_fill.rs"]}
{"id": "C44", "title": "Migration liquidity is affordable", "statement": "The liquidity computed for the migrated pool never needs more base or quote (rounded up) than the amounts set aside for it.", "quantifier": "every base amount, quote amount and migration price", "why_tests_cant": "All amounts and prices.", "anchors": ["programs/dynamic-bonding-curve/src/migration_handler/"]}
{"id": "C45", "title": "Vesting parameters pay out exactly the vested amount", "statement": "Locked token vesting pays cliff + number_of_period * amount_per_period, which is exactly the amount set aside; migrated-liquidity vesting parameters satisfy cliff + periods * per-period = vested liquidity for every amount.", "quantifier": "every amount and schedule", "why_tests_cant": "All amounts.", "anchors": ["programs/dynamic-bonding-curve/src/instructions/partner/ix_create_config.rs:LockedVestingParams", "programs/dynamic-bonding-curve/src/state/config.rs:LiquidityVestingInfo"]}
{"id": "C46", "title": "Creator transfer is gated", "statement": "Only the current creator can transfer the creator role, and only before completion or after the migrated pool exists; for DAMM v1 additionally only after every LP entitlement has been locked and claimed, so a transfer never strands or redirects LP tokens.", "quantifier": "every history", "why_tests_cant": "Histories.", "anchors": ["programs/dynamic-bonding-curve/src/instructions/creator/ix_transfer_pool_creator.rs"]}
{"id": "C47", "title": "Every buyer can sell back", "statement": "In every reachable incomplete pool, an exact-in sell of any amount not exceeding the base tokens bought from the curve so far never runs past the start of the curve.", "quantifier": "every accepted config, every history, every amount", "why_tests_cant": "History plus arithmetic over all segments.", "anchors": ["programs/dynamic-bonding-curve/src/state/virtual_pool.rs:calculate_base_to_quote_from_amount_in"]}
{"id": "C48", "title": "Metrics are cumulative and exact", "statement": "The pool's fee metrics never decrease and equal the sum of the protocol and trading fees of all successful swaps.", "quantifier": "every history", "why_tests_cant": "Histories.", "anchors": ["programs/dynamic-bonding-curve/src/state/virtual_pool.rs:PoolMetrics"]}
{"id": "C49", "title": "Failed instructions change nothing", "statement": "An instruction that returns an error leaves pool, vaults and lamports unchanged.", "quantifier": "every instruction and state", "why_tests_cant": "All failure points.", "anchors": ["programs/dynamic-bonding-curve/src/lib.rs"]}
{"id": "C50", "title": "Swap buffer keeps pre-migration supply sufficient", "statement": "The buffered swap amount is at least the unbuffered one, at most 125% of it, and at most the base the whole curve can sell (up to one unit per segment). The supply minted at pool creation covers it: unless it already contains all the curve can ever sell, it holds a quarter more than the curve sells up to the migration price, on top of the migration and vesting amounts.", "quantifier": "every curve", "why_tests_cant": "All curves.", "anchors": ["programs/dynamic-bonding-curve/src/state/config.rs:get_swap_amount_with_buffer"]}
{"id": "C51", "title": "Burn after migration respects fixed supply", "statement": "After migration of a fixed-supply pool at most pre-migration minus post-migration supply is burned and at most what is left after fees; for dynamic supply all leftover is burned; fees are never burned. Together with what holders destroyed themselves, a fixed supply never falls below the post-migration supply, nor before migration below the pre-migration supply.", "quantifier": "every config and leftover", "why_tests_cant": "All amounts.", "anchors": ["programs/dynamic-bonding-curve/src/state/config.rs:get_burnable_amount_post_migration", "programs/dynamic-bonding-curve/src/instructions/migration/"]}
{"id": "C52", "title": "A completed pool can always be migrated", "statement": "In every history, a pool whose curve is complete can be brought to its DAMM pool: creating the token vesting and the DAMM v1 metadata succeeds, and then the migration instruction succeeds whatever happened before, provided the DAMM program takes the amounts its formulas give; a DAMM v2 pool starts within one percent of the migration price.", "quantifier": "every config, every history, every time, every faithful result of the DAMM program", "why_tests_cant": "A stuck migration would lock all funds; it depends on the whole history of reserves, fees and donations and on overflow corners of the config.", "anchors": ["programs/dynamic-bonding-curve/src/instructions/migration/dynamic_amm_v2/migrate_damm_v2_initialize_pool.rs:handle_migrate_damm_v2", "programs/dynamic-bonding-curve/src/instructions/migration/meteora_damm/migrate_meteora_damm_initialize_pool.rs:handle_migrate_meteora_damm", "programs/dynamic-bonding-curve/src/instructions/migration/create_locker.rs", "programs/dynamic-bonding-curve/src/migration_handler/"]}
{"id": "C53", "title": "An open pool can be traded to completion", "statement": "In every reachable pool whose curve is not complete, a partial-fill purchase of any positive amount without a minimum executes, provided the quote vault and the cumulative fee metrics have room for it in 64 bits and, while the rate limiter is in force, the purchase is a top-level instruction and no earlier instruction of its transaction concerns the pool; and if the amount is at least a hundred times the threshold plus one the purchase completes the curve, whatever the fee. The room in the metrics is necessary: some reachable pool can never again be bought from, hence never completes or migrates, because a cumulative fee metric is full.", "quantifier": "every reachable incomplete pool, every amount, clock and trader; for the negative part every continuation of one history", "why_tests_cant": "Success must be shown for all reachable states, curve shapes and fee settings; permanent failure is a statement about every future history.", "anchors": ["programs/dynamic-bonding-curve/src/state/virtual_pool.rs:get_swap_result_from_partial_input", "programs/dynamic-bonding-curve/src/state/virtual_pool.rs:accumulate_fee", "programs/dynamic-bonding-curve/src/instructions/swap/ix_swap.rs:handle_swap_wrapper"]}
{"id": "C54", "title": "More in, more out", "statement": "Of two exact-input swaps that the same pool state would both accept on the same terms (same direction, time and first-swap entitlement), outside the rate limiter the one with the larger input receives at least as much and moves the price at least as far; of two exact-output swaps the one that asks for more pays at least as much and moves the price at least as far. With the rate limiter in force this is false: one more unit of quote can buy less.", "quantifier": "every reachable pool, every pair of requests", "why_tests_cant": "A comparison of two executions over all states, curve shapes and amounts; rounding at every segment could break it anywhere.", "anchors": ["programs/dynamic-bonding-curve/src/state/virtual_pool.rs:get_swap_result_from_exact_input", "programs/dynamic-bonding-curve/src/base_fee/fee_rate_limiter.rs:get_fee_numerator_from_included_fee_amount"]}
{"id": "C55", "title": "Exact-input and exact-output swaps agree", "statement": "On the same terms in the same state, outside the rate limiter: paying at least what an exact-output swap would charge buys at least what it would deliver; and asking for less than an exact-input swap delivers charges at most its input. Asking for exactly what it delivers can cost more.", "quantifier": "every reachable pool, every pair of requests", "why_tests_cant": "Relates two different computations (floor and ceiling in opposite places) on all curves and amounts.", "anchors": ["programs/dynamic-bonding-curve/src/state/virtual_pool.rs:get_swap_result_from_exact_input", "programs/dynamic-bonding-curve/src/state/virtual_pool.rs:get_swap_result_from_exact_output"]}
{"id": "C56", "title": "Splitting a trade does not pay", "statement": "Without a dynamic fee, outside the rate limiter and the first-swap discount, an exact-input trade split in any number of parts at the same time receives in total no more than the whole trade and moves the price no further. With a dynamic fee this is false: the fee uses the volatility as the last trade left it, so a dust trade first can lower the fee of the real one.", "quantifier": "every reachable pool, every amount and every way to split it, in any number of parts", "why_tests_cant": "Compares two histories with one for all amounts; rounding must always favour the pool.", "anchors": ["programs/dynamic-bonding-curve/src/state/virtual_pool.rs:get_swap_result_from_exact_input", "programs/dynamic-bonding-curve/src/state/virtual_pool.rs:update_pre_swap"]}
{"id": "C57", "title": "Mint and update authority of the base token, and its supply", "statement": "From the creation of the pool on the mint authority and the metadata update authority are the ones the config promises (for the five options: nobody, the creator or the partner), whatever happens later. The supply grows only by a mint signed by that authority and shrinks only at migration or when a holder burns their own tokens; without a mint authority it never grows after creation; at any time it is what was minted less what was burned.", "quantifier": "every config, every pool, every history", "why_tests_cant": "A statement about all later histories.", "anchors": ["programs/dynamic-bonding-curve/src/state/config.rs:TokenAuthorityOption", "programs/dynamic-bonding-curve/src/instructions/initialize_pool/", "programs/dynamic-bonding-curve/src/instructions/migration/"]}
{"id": "C58", "title": "The migrated pool opens at the price the curve ended at", "statement": "When a pool migrates, the tokens deposited into a DAMM v1 pool are exactly the config's base threshold and the quote threshold less the migration fee, each less the protocol's 0.2 percent rounded down, and they are in the proportion of the curve's migration price up to one unit of quote or two units of base. A concentrated DAMM v2 pool is created with exactly the migration price; a constant-product DAMM v2 pool with the square root of the ratio of those two amounts, which is the migration price up to their rounding and never more than one percent off.", "quantifier": "All accepted configs, all histories ending in a successful migration", "why_tests_cant": "The amounts go through five roundings whose combined effect depends on every config value.", "anchors": ["programs/dynamic-bonding-curve/src/params/liquidity_distribution.rs", "programs/dynamic-bonding-curve/src/migration_handler/", "programs/dynamic-bonding-curve/src/instructions/migration/dynamic_amm_v2/migrate_damm_v2_initialize_pool.rs", "programs/dynamic-bonding-curve/src/instructions/migration/meteora_damm/migrate_meteora_damm_initialize_pool.rs"]}
{"id": "C59", "title": "Each party receives its own liquidity position, locked as configured", "statement": "A successful DAMM v2 migration creates at most two positions. The liquidity shared out is the largest the quote set aside pays for at the opening price (concentrated), or the square root of the product of the two amounts less the dead liquidity (constant-product). The partner is due its three percentages of it, rounded down; the creator its two locked percentages rounded down and all the rest. The first position belongs to the party due more (the creator on a tie), with exactly its amounts, plus the dead liquidity. The second, if any liquidity is left, belongs to the other party; its free part is at most what is due and a shortfall falls on the locked part first, whose vested share is proportional. Every vested part follows the schedule of its own party.", "quantifier": "All accepted configs, all histories ending in a successful migration, all amounts taken by the external pool", "why_tests_cant": "The split depends on percentages, roundings and amounts returned by an external program.", "anchors": ["programs/dynamic-bonding-curve/src/state/config.rs:get_liquidity_distribution", "programs/dynamic-bonding-curve/src/state/config.rs:adjust_liquidity", "programs/dynamic-bonding-curve/src/instructions/migration/dynamic_amm_v2/migrate_damm_v2_initialize_pool.rs"]}
{"id": "C60", "title": "Many pools: each behaves as if it were alone, and never shares an account with another", "statement": "Whatever instructions anyone sends, with whatever accounts they choose to pass, the accounts of every pool are in a state that a lone pool with honest accounts could reach; a pool's vaults always hold what the pool owes; two pools never share a vault or a base mint; and a pool keeps its mint, config and vaults for ever.", "quantifier": "Every number of configs and pools, every history of instructions with arbitrary (also hostile or repeated) accounts", "why_tests_cant": "A caller can pass any account in any position; tests try a few wrong ones.", "anchors": ["programs/dynamic-bonding-curve/src/instructions/swap/ix_swap.rs:SwapCtx", "programs/dynamic-bonding-curve/src/instructions/initialize_pool/", "programs/dynamic-bonding-curve/src/state/virtual_pool.rs:VirtualPool"]}
{"id": "C61", "title": "Isolation: an instruction can only touch the pool it names and the signer's own tokens", "statement": "An instruction for one pool changes nothing in another pool: its state stays the same and its vaults and lamports do not shrink. A token account loses tokens only if its owner signs, or if it is a vault (or LP holding) of the very pool the instruction runs on. A config never changes after it was created.", "quantifier": "Every history with any number of pools, every instruction, every choice of accounts, every bystander account", "why_tests_cant": "Quantifies over every bystander and every way to mix accounts of several pools.", "anchors": ["programs/dynamic-bonding-curve/src/instructions/swap/ix_swap.rs:SwapCtx", "programs/dynamic-bonding-curve/src/instructions/partner/", "programs/dynamic-bonding-curve/src/instructions/creator/", "programs/dynamic-bonding-curve/src/instructions/operator/", "programs/dynamic-bonding-curve/src/instructions/migration/"]}
{"id": "C62", "title": "Payouts with a fixed beneficiary reach only that beneficiary", "statement": "Whoever calls and whatever accounts are passed: a protocol fee claim only increases the treasury's associated token accounts; protocol fees taken out to be swapped only the associated token account of the operator who signs; withdrawn leftover tokens only that of the receiver named in the config; claimed LP tokens only that of the partner or the creator.", "quantifier": "Every history, every caller, every choice of accounts", "why_tests_cant": "The caller chooses the destination account; every possible choice has to be checked.", "anchors": ["programs/dynamic-bonding-curve/src/instructions/operator/ix_claim_protocol_fee.rs", "programs/dynamic-bonding-curve/src/instructions/operator/ix_zap_protocol_fee.rs", "programs/dynamic-bonding-curve/src/instructions/migration/withdraw_leftover.rs", "programs/dynamic-bonding-curve/src/instructions/migration/meteora_damm/meteora_damm_claim_lp_token.rs"]}
{"id": "C63", "title": "Tokens are conserved over all accounts", "statement": "Summed over all token accounts, a trade, claim or withdrawal neither creates nor destroys a token of any mint, also if one account is passed in several positions. Migrations and lockers take out exactly what they hand to the other program (and what is burned).", "quantifier": "Every history, every instruction on a pool, every mint, every choice of accounts", "why_tests_cant": "Aliased accounts are a classic source of created tokens; the sum ranges over all accounts.", "anchors": ["programs/dynamic-bonding-curve/src/instructions/swap/ix_swap.rs", "programs/dynamic-bonding-curve/src/utils/token.rs"]}
{"id": "C64", "title": "The migrated pool charges the fees the config promises", "statement": "A pool with customizable fees is created with exactly the configured terms: the fee data sent to DAMM v2 decodes to the configured opening fee (between 0.1% and 10%) and schedule, which never rises above the opening fee, never falls below 0.01% and follows the configured formula; fees are collected in the configured way, the compounding share is between 0 and 100% and nonzero only in compounding mode; a dynamic fee is attached if and only if it was asked for, and at any volatility adds at most a fifth of the lowest scheduled fee (nearly that at full volatility); the pool covers the whole price range and is open at once. Building these terms never prevents a migration. With a fixed fee option, migration succeeds only with a DAMM config reserved for this program whose constant fee, rounded down to hundredths of a percent, is the promised one, with no vault, no partner fee (DAMM v1) and the whole price range (DAMM v2); every config with these terms is accepted. (How such a config collects fees and whether it adds a dynamic fee is not checked.)", "quantifier": "Every accepted config, every history up to migration, every destination config account the caller may bring", "why_tests_cant": "The fee data is a byte string built from many fields and the schedule depends on powers; the destination config is chosen by whoever migrates.", "anchors": ["programs/dynamic-bonding-curve/src/state/config.rs:build_damm_v2_pool_fee_params", "programs/dynamic-bonding-curve/src/utils/damm_v2_utils.rs:calculate_dynamic_fee_params", "programs/dynamic-bonding-curve/src/instructions/partner/ix_create_config.rs:MigratedPoolFee", "programs/dynamic-bonding-curve/src/instructions/migration/dynamic_amm_v2/migrate_damm_v2_initialize_pool.rs:validate_config_key", "programs/dynamic-bonding-curve/src/instructions/migration/meteora_damm/migrate_meteora_damm_initialize_pool.rs:validate_config_key", "programs/dynamic-bonding-curve/src/migration_handler/mod.rs:to_dammv2_collect_fee_mode"]}
{"id": "C65", "title": "A trade gets what the curve says, up to a few units of rounding", "statement": "Rounding is not only in the pool's favour (C11) but small. For every trade, in every mode: a buyer's quote (after fees) exceeds the exact quote amount of the curve between the old and new price by at most k units, and the base that leaves the curve is at least the exact base amount less k units (an exact-output purchase may move the price one step further than the output needs). A seller's quote is at least the exact quote amount less k units, and the base they deliver is at most the exact base amount plus k units (an exact-input sale may leave the price up to one step short, also at the start price). k is the number of curve points plus two; a step is the smallest change of the stored square-root price.", "quantifier": "Every accepted config, every history, every successful trade of any size, mode and direction", "why_tests_cant": "Rounding losses accumulate over the curve's segments and depend on liquidity and price; tests compare a few amounts with themselves.", "anchors": ["programs/dynamic-bonding-curve/src/state/virtual_pool.rs:get_swap_result_from_exact_input", "programs/dynamic-bonding-curve/src/state/virtual_pool.rs:get_swap_result_from_partial_input", "programs/dynamic-bonding-curve/src/state/virtual_pool.rs:get_swap_result_from_exact_output", "programs/dynamic-bonding-curve/src/curve.rs:get_next_sqrt_price_from_input", "programs/dynamic-bonding-curve/src/curve.rs:get_delta_amount_base_unsigned", "programs/dynamic-bonding-curve/src/curve.rs:get_delta_amount_quote_unsigned"]}
{"id": "C66", "title": "SOL: nobody can drain the pool authority, pools keep their rent, and users pay only what they sign for", "statement": "The pool authority is shared by all pools and signs calls to other programs. No history of instructions, whatever the called programs do within the rules of the runtime, lowers its SOL, reassigns it or gives it data; rent it advances to another program is paid back exactly by the payer of the same instruction. Accounts of the program other than operator accounts are never closed, resized or reassigned, and never fall below their rent minimum; a new pool starts with its rent plus the whole creation fee. An instruction lowers the SOL only of wallets that signed it, of the pool a creation-fee claim is made on, of a closed operator account, of accounts it creates, and of accounts belonging to other programs; a creation-fee claim moves exactly the claimed amount.", "quantifier": "Every history of instructions and of transactions outside the program, every behaviour of the called programs, every initial ledger", "why_tests_cant": "The called programs are not under the tests' control; a test runs against one version of them, on one ledger.", "anchors": ["programs/dynamic-bonding-curve/src/utils/cpi_checker.rs:cpi_with_account_lamport_and_owner_checking", "programs/dynamic-bonding-curve/src/instructions/migration/flash_rent.rs:flash_rent", "programs/dynamic-bonding-curve/src/utils/token.rs:transfer_lamports_from_pool_account", "programs/dynamic-bonding-curve/src/utils/token.rs:update_account_lamports_to_minimum_balance", "programs/dynamic-bonding-curve/src/instructions/migration/create_locker.rs", "programs/dynamic-bonding-curve/src/instructions/migration/dynamic_amm_v2/migrate_damm_v2_initialize_pool.rs", "programs/dynamic-bonding-curve/src/instructions/migration/meteora_damm/migrate_meteora_damm_initialize_pool.rs", "programs/dynamic-bonding-curve/src/instructions/initialize_pool/ix_initialize_virtual_pool_with_spl_token.rs"]}
{"id": "C67", "title": "Events tell the truth: an indexer can rebuild the pool from them", "statement": "For every successful instruction that emits events, the tokens and SOL that enter or leave the pool's accounts are exactly those its events tell. Replaying the events of any history over the state before it, with only the config at hand, yields the pool's reserves, price, creator, completion time, unclaimed partner and creator fees, lifetime fees and one-time payment flags after it. The reserve in a swap event is the old reserve plus what the event says went in, or minus what it says left the curve; the old swap event carries the same amounts, its amount in is the amount paid and its minimum is met. The completion event is emitted exactly by the transaction that ends trading, with the final reserves, at most once in any history, and no swap event follows it. The events of config and pool creation state what was stored, and they are enough to know the config: two pools with the same events from the creation of their configs on have the same config, activation point and book.", "quantifier": "Every reachable pool, every history of instructions", "why_tests_cant": "Off-chain consumers rely on the events for every history; tests do not look at the events.", "anchors": ["programs/dynamic-bonding-curve/src/event.rs", "programs/dynamic-bonding-curve/src/instructions/swap/ix_swap.rs:handle_swap_wrapper", "programs/dynamic-bonding-curve/src/instructions/swap/swap_exact_out.rs", "programs/dynamic-bonding-curve/src/instructions/swap/swap_partial_fill.rs", "programs/dynamic-bonding-curve/src/instructions/partner/ix_claim_partner_trading_fee.rs", "programs/dynamic-bonding-curve/src/instructions/creator/ix_claim_creator_trading_fee.rs", "programs/dynamic-bonding-curve/src/instructions/operator/ix_claim_protocol_fee.rs", "programs/dynamic-bonding-curve/src/instructions/operator/ix_claim_protocol_pool_creation_fee.rs", "programs/dynamic-bonding-curve/src/instructions/migration/ix_withdraw_migration_fee.rs", "programs/dynamic-bonding-curve/src/instructions/migration/withdraw_leftover.rs"]}
{"id": "C68", "title": "Pool tokens move exactly as asked and only with the vault's authority", "statement": "For every quote mint a config can be created for, and for every base mint this program creates, whatever the issuer and the holders of the mint do later: a transfer debits and credits exactly its amount; the pool's vault keeps its owner, never gets a delegate or close authority, and loses only what the pool authority signs for; the vault can pay out all it holds as long as it is not frozen. Vaults of base mints can never be frozen, and a new base mint has its whole supply in the vault and the promised mint authority. Pools that migrate to DAMM v1 use SPL Token quote mints. Not guaranteed: a quote mint with a freeze authority is accepted, and that authority can stop all payments of the vault.", "quantifier": "every mint of either token program with any extensions, every history of token instructions by anybody", "why_tests_cant": "The issuer may act at any later time; safety has to hold for all sequences of actions on the mint and on the accounts.", "anchors": ["programs/dynamic-bonding-curve/src/utils/token.rs:is_supported_quote_mint", "programs/dynamic-bonding-curve/src/instructions/initialize_pool/", "programs/dynamic-bonding-curve/src/instructions/partner/ix_create_config.rs"]}
{"id": "C69", "title": "Nothing is stranded: the books balance exactly", "statement": "After any history, a pool's quote vault holds exactly what its partner, creator, protocol, traders and migration can still take, plus tokens that somebody sent there for nothing, plus what the migrated pool did not take of the tokens set aside for it. Likewise for the base vault, the SOL of the creation fee and the LP tokens of a DAMM v1 migration. When, after migration, everybody collects, only such gifts (and the untaken quote) remain. A DAMM v1 pool leaves nothing untaken; a concentrated DAMM v2 pool that charges what its formulas say leaves less than about the price of one smallest base unit, and a constant-product one about the price of two at most.", "quantifier": "all configs, all histories of instructions, all gifts, all answers of the migration target", "why_tests_cant": "a rounding remainder that nobody can claim, or a fee recorded twice, shows up only as a discrepancy over a whole history", "anchors": ["programs/dynamic-bonding-curve/src/state/virtual_pool.rs: apply_swap_result, claim_*, partner/creator_withdraw_surplus, get_protocol_surplus", "programs/dynamic-bonding-curve/src/instructions/migration: withdraw_leftover, withdraw_migration_fee, migrate_*"]}
{"id": "C70", "title": "Published metadata is authentic, complete and permanent", "statement": "Partner metadata can be published only with the partner's signature, pool metadata only with the signature of the pool's creator at that time, once each. The account then contains, in the published layout, exactly the three texts given and the address described, filling it to the last byte; any three valid texts that fit an account can be published. Nothing changes or removes it later, and publishing it changes nothing else. Legacy operator accounts can only be closed, and only by an admin.", "quantifier": "all texts (byte strings), all signers, all states, all histories of all instructions", "why_tests_cant": "the space of the account is computed separately from the encoding: any length of any of three strings must fit exactly, and permanence is about every later instruction", "anchors": ["programs/dynamic-bonding-curve/src/instructions/partner/ix_create_partner_metadata.rs: handle_create_partner_metadata", "programs/dynamic-bonding-curve/src/instructions/creator/ix_create_virtual_pool_metadata.rs: handle_create_virtual_pool_metadata", "programs/dynamic-bonding-curve/src/state/partner_metadata.rs: PartnerMetadata::space", "programs/dynamic-bonding-curve/src/state/virtual_pool_metadata.rs: VirtualPoolMetadata::space", "programs/dynamic-bonding-curve/src/instructions/admin/ix_close_claim_protocol_fee_operator.rs"]}
{"id": "C71", "title": "A trade depends on nothing but the trades before it", "statement": "Take two histories of the same pool in which the same swaps succeed in the same order. Whatever else happens in them (claims, creator transfers, operator actions, withdrawals, migration, gifts, failed instructions), each swap moves exactly the same tokens between the same parties, and price, reserves, volatility, completion time and lifetime fee totals end up equal. Moreover instructions other than swaps, put anywhere between swaps that succeed, never make one of them fail or change its result (tokens sent to a vault outside of any trade excepted: those are bounded by what the token's supply allows, not by the pool).", "quantifier": "all reachable pools, all pairs of histories", "why_tests_cant": "the claim compares two unbounded histories and every instruction of the program at every place between the trades", "anchors": ["programs/dynamic-bonding-curve/src/state/virtual_pool.rs: get_swap_result_from_exact_input, apply_swap_result", "programs/dynamic-bonding-curve/src/instructions/swap/ix_swap.rs: handle_swap_wrapper", "programs/dynamic-bonding-curve/src/instructions/partner", "programs/dynamic-bonding-curve/src/instructions/creator", "programs/dynamic-bonding-curve/src/instructions/operator"]}
{"id": "C72", "title": "Waiting never costs", "statement": "If nobody trades in between, the same swap sent later is never worse for the trader: an exact-input or partial-fill swap receives at least as many tokens (an exact-input swap for the same payment), an exact-output swap pays at most as much. This holds for every fee mode: linear and exponential schedule and rate limiter, with or without the dynamic fee or a first-swap entitlement.", "quantifier": "every reachable pool, every pair of requests that differ only in slot, time and slippage limit and that are both accepted", "why_tests_cant": "a comparison of two executions over all states, curves, fee schedules and pairs of times; period boundaries and rounding could break it at any point", "anchors": ["programs/dynamic-bonding-curve/src/base_fee/fee_scheduler.rs: get_base_fee_numerator", "programs/dynamic-bonding-curve/src/base_fee/fee_rate_limiter.rs: is_rate_limiter_applied", "programs/dynamic-bonding-curve/src/state/fee.rs: get_total_fee_numerator", "programs/dynamic-bonding-curve/src/params/fee_parameters.rs", "programs/dynamic-bonding-curve/src/state/virtual_pool.rs: get_swap_result_from_exact_input, get_swap_result_from_partial_input, get_swap_result_from_exact_output"]}
{"id": "C73", "title": "Equal treatment of traders", "statement": "Two swaps of the same direction, kind, amount and time, either or neither of them bundled with the creation of the pool, are executed alike: the same payment, the same amount received, the same price, reserves, volatility and completion, the same fees for partner and creator. Who trades, who refers them and which limit they set makes no difference; what a referrer gets is taken from the protocol's share alone. A limit does nothing but refuse: if the trade meets it the very same state follows, and otherwise the swap fails with the slippage error.", "quantifier": "all reachable pools, all pairs of requests, all limits", "why_tests_cant": "compares two executions for all states and all pairs of traders, referrers and limits", "anchors": ["programs/dynamic-bonding-curve/src/instructions/swap/ix_swap.rs: handle_swap_wrapper", "programs/dynamic-bonding-curve/src/instructions/swap/swap_exact_in.rs", "programs/dynamic-bonding-curve/src/instructions/swap/swap_exact_out.rs", "programs/dynamic-bonding-curve/src/instructions/swap/swap_partial_fill.rs", "programs/dynamic-bonding-curve/src/state/config.rs: get_fee_on_amount, split_fees", "programs/dynamic-bonding-curve/src/state/virtual_pool.rs: apply_swap_result"]}
{"id": "C74", "title": "No pool gets stuck on the way to migration", "statement": "From every state a pool can be in, at any time after its activation, anybody who has enough quote tokens (a hundred times the threshold is offered, the swap takes what it needs) and no special rights can bring it to its migrated state with at most four instructions, all of which succeed: a purchase that completes the curve, the vesting escrow, the DAMM v1 metadata and the migration. The only condition is room in the 64-bit vault and fee totals (see C53 for why that is needed).", "quantifier": "all reachable pools, all times from activation on, all migration targets answering by their formulas", "why_tests_cant": "liveness from every reachable state; tests follow a few happy paths", "anchors": ["programs/dynamic-bonding-curve/src/instructions/swap/ix_swap.rs", "programs/dynamic-bonding-curve/src/instructions/migration/create_locker.rs", "programs/dynamic-bonding-curve/src/instructions/migration/meteora_damm", "programs/dynamic-bonding-curve/src/instructions/migration/dynamic_amm_v2"]}
{"id": "C75", "title": "What is stored is what was computed", "statement": "Every number a pool or config holds fits the machine type of its field, after every history, so nothing is truncated when the account is written. The account data are exactly 416 (pool) or 1040 (config) bytes; each quantity is found at its published offset, little-endian; and whoever reads the bytes back obtains exactly the state the program computed, so equal account data means equal state. The fields follow each other without compiler padding.", "quantifier": "all reachable pools, all accepted configs, all addresses", "why_tests_cant": "a silent truncation or a misplaced field shows up only for particular magnitudes; bounds on lifetime totals need an invariant over all histories", "anchors": ["programs/dynamic-bonding-curve/src/state/virtual_pool.rs: VirtualPool", "programs/dynamic-bonding-curve/src/state/config.rs: PoolConfig, PoolConfig::init", "programs/dynamic-bonding-curve/src/state/fee.rs: VolatilityTracker", "programs/dynamic-bonding-curve/src/state/config.rs: LiquidityDistributionConfig"]}
{"id": "C76", "title": "The protocol takes a fifth of a percent of the migrated liquidity, no more", "statement": "Whenever a pool migrates, the protocol's part is 20 basis points, rounded down, of the quote tokens set aside for the new pool; of the base tokens set aside it is exactly as much for a constant-product pool and at most as much for a concentrated one. A concentrated pool opens with at least 99.8 percent (to the basis point) of the liquidity the whole quote would have bought. If the quote set aside is a multiple of 500 units the fee never raises the opening price of a constant-product pool; in general it can raise it by the rounding (the full claim of the repository's random test is refuted).", "quantifier": "all accepted configs, all histories ending in a migration", "why_tests_cant": "the repository's random tests draw the square-root price uniformly and so only ever see prices near the maximum, where the base amount is a few units; the claim about the price is false for ordinary prices", "anchors": ["programs/dynamic-bonding-curve/src/migration_handler/compounding_liquidity.rs: get_migration_protocol_fees", "programs/dynamic-bonding-curve/src/migration_handler/concentrated_liquidity.rs: get_migration_protocol_fees, calculate_concentrated_initial_liquidity", "programs/dynamic-bonding-curve/src/instructions/migration", "programs/dynamic-bonding-curve/src/tests/test_migration_fee.rs"]}
{"id": "C77", "title": "Rounding does not pile up; the surplus is rounding", "statement": "At every point of every history the quote reserve is at least the exact quote amount of the curve up to the current price, and exceeds it by at most k units for every trade made so far (k = number of curve points plus two). Hence whatever a completed pool holds above its threshold, the surplus that partner, creator and protocol share, is rounding only: at most k units per trade.", "quantifier": "all accepted configs, all histories of any length", "why_tests_cant": "an error of one unit per trade becomes visible only after many trades; the claim bounds its sum over unbounded histories, curves and prices", "anchors": ["programs/dynamic-bonding-curve/src/curve.rs: get_delta_amount_quote_unsigned_256, get_next_sqrt_price_from_input, get_next_sqrt_price_from_output", "programs/dynamic-bonding-curve/src/state/virtual_pool.rs: apply_swap_result, get_total_surplus", "programs/dynamic-bonding-curve/src/params/liquidity_distribution.rs: get_migration_threshold_price"]}
{"id": "C78", "title": "The order of collecting does not matter", "statement": "Partner, creator, protocol and leftover receiver have ten kinds of amounts to collect from a pool: trading fees, surplus shares, migration fee shares, creation fee shares, protocol fees and the leftover. Take any instructions that collect different ones of them and each of which would succeed now. In whatever order they are executed, all of them succeed, each pays exactly what it would pay now, to the same accounts, and the pool ends up in the same state.", "quantifier": "every reachable pool, every set of collecting instructions, every order of them", "why_tests_cant": "There are millions of orders; a test tries one.", "anchors": ["programs/dynamic-bonding-curve/src/instructions/partner/", "programs/dynamic-bonding-curve/src/instructions/creator/", "programs/dynamic-bonding-curve/src/instructions/operator/", "programs/dynamic-bonding-curve/src/instructions/migration/withdraw_leftover.rs", "programs/dynamic-bonding-curve/src/instructions/migration/ix_withdraw_migration_fee.rs"]}
{"id": "C79", "title": "An honest caller is never turned away", "statement": "Whenever the rules of the pool allow an instruction (the pool's own model accepts it), the caller who submits it with the right accounts is served: the pool's own vaults and mints, the signer the rules name, receiving token accounts of the right mint whose balance stays within range, and, for a payer, a token account holding at least the amount. The instruction succeeds, and the accounts then show exactly the new state of the pool, whatever other accounts, pools and configs exist and whatever was done to them before. This covers every instruction on an existing pool.", "quantifier": "all histories over all accounts and pools, every instruction on a pool, all account choices meeting the listed conditions", "why_tests_cant": "a superfluous or wrong account check locks somebody out only for particular combinations of accounts; tests try one combination", "anchors": ["programs/dynamic-bonding-curve/src/instructions/swap/ix_swap.rs: SwapCtx", "programs/dynamic-bonding-curve/src/instructions/partner/", "programs/dynamic-bonding-curve/src/instructions/creator/", "programs/dynamic-bonding-curve/src/instructions/operator/", "programs/dynamic-bonding-curve/src/instructions/migration/"]}
{"id": "C80", "title": "Wrong accounts are never accepted", "statement": "Every account an instruction names is the right one if the instruction succeeds: the config, the two vaults, the two mints and the metadata are the pool's own; the signer is the fee claimer, the creator, the leftover receiver or an operator holding the permission the instruction needs, as the rules name them; fees, surplus and leftover go to the accounts the rules name; a swap takes its input from an account of the signer with one of the pool's two mints. No account of another pool, another config or another person is ever accepted in their place. New pools and configs are created only at unused addresses, for an existing quote mint that the config chose.", "quantifier": "all histories over all accounts and pools, every instruction, every choice of accounts", "why_tests_cant": "a missing account check shows only for the one combination of foreign accounts that nobody thought to pass; tests pass the right accounts", "anchors": ["programs/dynamic-bonding-curve/src/instructions/swap/ix_swap.rs: SwapCtx", "programs/dynamic-bonding-curve/src/instructions/partner/", "programs/dynamic-bonding-curve/src/instructions/creator/", "programs/dynamic-bonding-curve/src/instructions/operator/", "programs/dynamic-bonding-curve/src/instructions/migration/", "programs/dynamic-bonding-curve/src/instructions/initialize_pool/"]}
{"id": "C81", "title": "Nobody can keep a pool from being opened", "statement": "At any time, after anything anybody did, a pool of any accepted config whose supply fits can be opened by anybody for any fresh base mint: the derived addresses of the pool and its two vaults are unused, no check refuses, and the pool then stands at its derived address with that config, that mint and that creator. The metadata that a migration to DAMM v1 needs is there already or can be created by anybody at once. A config whose terms are accepted can be stored at any fresh address. Only this program's own accounts are ever found at the addresses it derives.", "quantifier": "all histories over all accounts and pools, all configs, fresh mints, creators, payers and times", "why_tests_cant": "squatting on an address or a check that can never pass again needs a particular earlier history; tests open pools in a fresh environment", "anchors": ["programs/dynamic-bonding-curve/src/instructions/initialize_pool/ix_initialize_virtual_pool_with_spl_token.rs", "programs/dynamic-bonding-curve/src/instructions/initialize_pool/ix_initialize_virtual_pool_with_token2022.rs", "programs/dynamic-bonding-curve/src/instructions/migration/", "programs/dynamic-bonding-curve/src/instructions/partner/ix_create_config.rs"]}
{"id": "C82", "title": "An exact output can be obtained whenever the curve holds it", "statement": "A trader who names the output of a swap gets exactly that output, for at most their limit, whenever the curve holds it: a purchase of a named number of base tokens succeeds whenever that number (plus the fee if it is taken in base tokens) is below the number of base tokens the stretches of the curve hold between the current and the migration price, each rounded down to whole tokens, and no purchase with a named output takes more than those; a sale for a named number of quote tokens succeeds exactly when the stretches of the curve below the current price, each rounded down to whole tokens, are worth that many plus the fee, provided the limit covers the price and the 64-bit counters have room. In every swap mode the limit decides only whether the trade happens: the trade that succeeds with one limit has the same effect with any other limit that its amounts respect, and is refused for slippage with any limit they do not.", "quantifier": "all reachable open pools, all requests with named output in both directions and all fee modes and rates, all limits", "why_tests_cant": "whether the curve loop ends before its last point or an intermediate amount overflows depends on the price, the liquidity and the amount together; tests ask for a few outputs", "anchors": ["programs/dynamic-bonding-curve/src/instructions/swap/swap_exact_out.rs", "programs/dynamic-bonding-curve/src/instructions/swap/ix_swap.rs", "programs/dynamic-bonding-curve/src/state/virtual_pool.rs: get_swap_result_from_exact_output, calculate_quote_to_base_from_amount_out, calculate_base_to_quote_from_amount_out"]}
{"id": "C83", "title": "A day after the migration a tenth of the liquidity really in the new pool is locked", "statement": "Whatever the pool's history, when it has been migrated to DAMM v2 and the DAMM took tokens by its published formulas, then one day later at least a tenth of the liquidity held by the new pool's positions cannot be withdrawn: it is permanently locked, dead, or not yet released by the vesting schedules attached to the positions. The tolerance is the liquidity of two tokens and 300000 units. On DAMM v1 at least a tenth of the LP tokens received is recorded as to be locked, up to 20 LP tokens.", "quantifier": "every reachable pool, both kinds of migrated pool, every vesting schedule and split, every migration time", "why_tests_cant": "the config only promises percentages; the second position is created from the leftovers of the first, so its size and its locked part depend on rounding in two programs, and on schedules that may have begun to release", "anchors": ["programs/dynamic-bonding-curve/src/instructions/migration/dynamic_amm_v2/migrate_damm_v2_initialize_pool.rs", "programs/dynamic-bonding-curve/src/state/config.rs: get_liquidity_distribution, adjust_liquidity, get_total_liquidity_locked_bps_at_n_seconds", "programs/dynamic-bonding-curve/src/utils/damm_v2_utils.rs"]}
{"id": "C84", "title": "The holders' base tokens add up to the supply", "statement": "From the creation of a pool on, whatever instructions anybody sends to the token programs, no account of the base token has a negative balance and the balances of all its accounts add up to the mint's supply, so no set of distinct accounts ever holds more; if the config appoints no minter, no mint authority ever appears again and the supply never exceeds the one the pool was created with.", "quantifier": "every history of token instructions before and after the creation, both token programs, every supply, minter and choice of accounts", "why_tests_cant": "a token out of nothing may need a particular sequence of approvals, closures, burns and authority changes by several parties", "anchors": ["programs/dynamic-bonding-curve/src/instructions/initialize_pool/ix_initialize_virtual_pool_with_spl_token.rs", "programs/dynamic-bonding-curve/src/instructions/initialize_pool/ix_initialize_virtual_pool_with_token2022.rs", "programs/dynamic-bonding-curve/src/utils/token.rs"]}
{"id": "C85", "title": "The token keeps the name it was created with, unless the appointed party changes it", "statement": "Right after a pool is opened, the base token shows the name, symbol and link that were submitted, for both token programs. From then on, whatever anybody sends to the token and metadata programs, and whatever other pools are opened, it shows the same until the party that the config appoints (creator or partner) signs a change; with an immutable token it shows the same for ever. Every change is signed by a party in charge of the metadata at that moment, and the appointed party can really change it.", "quantifier": "every history before and after the opening, every text, both token programs, all five authority options, any signers", "why_tests_cant": "one forgotten hand-over among the five invocations of the opening would leave the authority with the creator or the program; whether anyone can ever use it depends on all later instructions", "anchors": ["programs/dynamic-bonding-curve/src/instructions/initialize_pool/process_create_token_metadata.rs", "programs/dynamic-bonding-curve/src/instructions/initialize_pool/ix_initialize_virtual_pool_with_token2022.rs", "programs/dynamic-bonding-curve/src/instructions/initialize_pool/ix_initialize_virtual_pool_with_spl_token.rs", "programs/dynamic-bonding-curve/src/state/config.rs: TokenAuthorityOption"]}
{"id": "C86", "title": "Exact-input and partial-fill swaps agree; a partial fill stops only at the end of the curve", "statement": "An exact-input swap that executes has the very same effect when it is sent as a partial fill. Conversely a partial fill that executes has the very same effect as the exact-input swap with the same parameters, unless that swap would be refused for want of liquidity; then the partial fill takes the price to the end of the curve, the migration price for a purchase (which completes the curve) or the starting price for a sale.", "quantifier": "every reachable pool, both directions, every amount, limit, time, fee mode and referral", "why_tests_cant": "the two modes are separate code paths with their own fee computations; equality of the resulting states must hold for every curve, fee schedule and amount, and a fill that stops early would only show at particular amounts", "anchors": ["programs/dynamic-bonding-curve/src/state/virtual_pool.rs: get_swap_result_from_exact_input, get_swap_result_from_partial_input, calculate_quote_to_base_from_amount_in, calculate_base_to_quote_from_amount_in", "programs/dynamic-bonding-curve/src/instructions/swap/ix_swap.rs"]}
{"id": "C87", "title": "A trade executes between the prices before and after it", "statement": "Nobody buys below, or sells above, the price the pool shows before the trade, whatever the mode, fees or referral; so over its whole life a pool sells nothing below the starting price and buys nothing above the migration price. On the other side, what enters and leaves the reserves is exchanged at a price no worse for the trader than the price the pool shows after the trade, but for k units of either token, k being the number of curve points plus three (for sales, one step of the price resolution lower). So, but for the fees and those k units, nobody ever buys above the migration price or sells below the starting price.", "quantifier": "every reachable pool and every trade it accepts, in all three modes and both directions", "why_tests_cant": "an average over up to sixteen stretches of the curve with rounding in each; one stretch priced with the wrong liquidity or rounded the wrong way breaks it only for trades that cross it", "anchors": ["programs/dynamic-bonding-curve/src/state/virtual_pool.rs: calculate_quote_to_base_from_amount_in, calculate_base_to_quote_from_amount_in, calculate_quote_to_base_from_amount_out, calculate_base_to_quote_from_amount_out", "programs/dynamic-bonding-curve/src/curve.rs"]}
{"id": "C88", "title": "Every trade pays one rate, known before it", "statement": "At any moment a pool has one fee rate: the base rate of its schedule (linear: a fixed step per period; exponential: a fixed fraction per period; rate limiter outside its window: the cliff rate) plus a dynamic surcharge, together at most 99%. Every trade accepted then pays exactly this rate on the taxed amount, rounded up, whatever its direction, mode, size and own price impact, except the discounted first swap and buys under the rate limiter. The surcharge is fixed by the trades before; nothing but a trade changes it, and time alone does not: the first trade after a quiet period still pays it, and it is gone only after a trade that, past the decay period, moves the price by less than a basis point.", "quantifier": "every reachable pool, every moment, and every trade accepted at that moment", "why_tests_cant": "the rate must be the same for all trades at a moment and follow from the whole history of price moves; a recomputation at a different place in the swap changes only trades with particular timings", "anchors": ["programs/dynamic-bonding-curve/src/state/config.rs: PoolFeesConfig, DynamicFeeConfig", "programs/dynamic-bonding-curve/src/state/fee.rs: VolatilityTracker", "programs/dynamic-bonding-curve/src/instructions/swap/ix_swap.rs", "programs/dynamic-bonding-curve/src/base_fee/fee_scheduler.rs"]}
{"id": "C89", "title": "A config is accepted exactly when it follows the rules", "statement": "Creating a config succeeds exactly when its terms follow the published rules: every option is one of the known ones, percentages add up, the fee terms stay between 0.25% and 99% (0.1% and 10% for the migrated pool), the releases of liquidity end within two years and hold back at least 10% of it for a day, the curve rises within the price range and raises the threshold, the base tokens to sell and to migrate fit in 64 bits, a constant-product migration opens within 1% of the last price, and a fixed supply covers everything with its buffer. Nothing that follows the rules is refused, and nothing else is accepted; for schedules that fall exponentially, both up to one part in 10^9 of rate.", "quantifier": "every set of config parameters, every quote token, every moment and every leftover address", "why_tests_cant": "the checks are spread over a dozen validators that share arithmetic with overflow checks; a test samples some accepted and some refused parameter sets, but a check that is too strict or too lax at one combination of fields goes unseen", "anchors": ["programs/dynamic-bonding-curve/src/instructions/partner/ix_create_config.rs: ConfigParameters::validate, handle_create_config", "programs/dynamic-bonding-curve/src/params/fee_parameters.rs", "programs/dynamic-bonding-curve/src/params/liquidity_distribution.rs", "programs/dynamic-bonding-curve/src/base_fee/fee_rate_limiter.rs: validate", "programs/dynamic-bonding-curve/src/base_fee/fee_scheduler.rs: validate"]}
{"id": "C90", "title": "Every instruction on a pool is accepted exactly when the rules allow it", "statement": "Apart from trades, every instruction on a pool succeeds exactly when its rule holds, whatever happened before: fees can be claimed by the partner and the creator at any time and by operators with the claim permission; a surplus or migration fee share exactly by its owner, once the curve is complete, and once; the partner's share of a creation fee once, if there is one; the leftover after the migration of a fixed supply, once; the vesting is locked once, after completion, if the config has any; the metadata is made once, for DAMM v1; the migration takes place once, with the configured target, after completion and after the vesting is locked; LP tokens are locked and handed out to those who still have some; the creator passes on the role before completion or when nothing of the DAMM v1 LP tokens is outstanding; admins appoint and dismiss operators. A trade with a named input on an open pool has one of three outcomes: it is executed as far as it could be filled at any price; it is refused because that would give less than the minimum asked; or it must be filled whole and the curve ends before.", "quantifier": "every pool, every history, every instruction with every signer and argument; for trades every open pool, amount, minimum and time with room in the 64-bit counters", "why_tests_cant": "whether an instruction is accepted depends on flags, bits, balances and computed amounts left behind by every earlier instruction; a refusal that should not happen (a shortage of one unit, an overflow, a flag set by another party's claim) shows only in particular histories", "anchors": ["programs/dynamic-bonding-curve/src/instructions: all handlers", "programs/dynamic-bonding-curve/src/state/virtual_pool.rs", "programs/dynamic-bonding-curve/src/state/meteora_damm_metadata_state.rs", "programs/dynamic-bonding-curve/src/access_control.rs"]}
{"id": "C91", "title": "A larger trade pays a larger fee, and how much the rate limiter takes", "statement": "Of two exact-input or two exact-output trades that the same pool would accept on the same terms, the larger one is charged at least as high a fee, outside the rate limiter. Under the rate limiter the fee of a larger buy is lower by at most one unit and a billionth of the smaller buy, and as long as the dynamic surcharge is at most 1% the larger buy brings at least as much quote to the curve, up to one unit and a billionth of its amount. With a larger surcharge the last claim is false: the limiter and the surcharge together can take more than the whole of every further unit, so that paying twice as much buys less than half the tokens.", "quantifier": "every reachable pool, both directions, both kinds of trades, every pair of amounts; under the rate limiter every pair of exact-input buys", "why_tests_cant": "a comparison of two outcomes for all pairs of amounts, through fees rounded at three places; where a larger payment starts to buy less depends on the slope of the limiter and on the volatility recorded by earlier trades", "anchors": ["programs/dynamic-bonding-curve/src/base_fee/fee_rate_limiter.rs", "programs/dynamic-bonding-curve/src/state/config.rs: PoolFeesConfig", "programs/dynamic-bonding-curve/src/state/virtual_pool.rs: get_swap_result_from_exact_input, get_swap_result_from_exact_output"]}
{"id": "C92", "title": "Whoever comes first buys cheaper, and whoever sells higher gets more", "statement": "On the same curve, whether at two moments of one pool or in two pools of the same config: of two purchases that bring the same quote to the reserve after fees, the one made at the lower price takes out at least as much base, up to k units of base and what k units of quote buy; of two sales that bring in the same base, the one made at the higher price takes out at least as much quote, up to k units of quote and the price of k units of base. k is the number of curve points plus three.", "quantifier": "every two reachable states with the same config, every pair of accepted trades in the same direction, in any modes", "why_tests_cant": "a comparison of two trades that start at different places of the curve and cross different stretches of it, each with its own rounding, for all pairs of places and amounts", "anchors": ["programs/dynamic-bonding-curve/src/state/virtual_pool.rs: calculate_quote_to_base_from_amount_in, calculate_base_to_quote_from_amount_in, calculate_quote_to_base_from_amount_out, calculate_base_to_quote_from_amount_out", "programs/dynamic-bonding-curve/src/curve.rs"]}
{"id": "C93", "title": "A round trip costs the fees and a few units of rounding, and nothing else", "statement": "Someone who buys and later, at the price their purchase led to, sells everything they got is short of no more than the two fees, 2k units of quote and the price of 2k units of base (if fees are taken in the output token, the fee of the purchase is base that they did not get, counted at that price). Someone who sells and then spends everything they got is short of no more base than the two fees buy, up to 2k units of base and what 2k units of quote buy. The same holds of the reserves for any two trades in opposite directions of which the second returns at most what the first took, in any modes. k is at most the number of curve points plus four. C12 is the other half: the round trip never profits.", "quantifier": "every reachable pool, every purchase and sale accepted one after the other at the same price, in any modes, with anything but trades in between", "why_tests_cant": "both trades cross several stretches of the curve with rounding at each one; the loss must be bounded for all curves, prices and amounts", "anchors": ["programs/dynamic-bonding-curve/src/state/virtual_pool.rs: calculate_quote_to_base_from_amount_in, calculate_base_to_quote_from_amount_in, calculate_quote_to_base_from_amount_out, calculate_base_to_quote_from_amount_out", "programs/dynamic-bonding-curve/src/curve.rs"]}
{"id": "C94", "title": "The build that the integration tests run behaves as the deployed program", "statement": "The program compiled with the feature local, which the project's tests exercise, accepts exactly the configs and, in every reachable state, exactly the instructions the deployed build accepts, with the same effects, and every history leads to the same state; the extra checks it makes (a purchase that reaches the last price must have filled the threshold; the liquidity of the new pool must not need more quote than there is) never fail. The one difference is that it lets everybody name operators.", "quantifier": "every reachable pool and instruction, every history whose operator instructions an admin signs, all config parameters", "why_tests_cant": "the extra checks are sums over a curve of any shape and rounding in each stretch; a test build that rejects or accepts something else would test another program", "anchors": ["programs/dynamic-bonding-curve/src/state/virtual_pool.rs: calculate_quote_to_base_from_amount_in (cfg feature local)", "programs/dynamic-bonding-curve/src/migration_handler/concentrated_liquidity.rs: get_included_protocol_fee_migration_amounts_1 (cfg feature local)", "programs/dynamic-bonding-curve/src/instructions/admin/auth.rs: assert_eq_admin (cfg feature local)"]}
{"id": "C95", "title": "Trading around somebody's trade gains no more than that trader misses, and their limit bounds it", "statement": "Compare a trade made at once with the same trade made after others have traded, and followed by more of their trades (a sandwich, of any length, by any number of parties). If the others do not end with less base, their gain from the pool's reserves is at most what the trader misses compared with trading at once: for a purchase the missed base at the price the purchase alone would have reached, for a sale the missed quote, up to k units of each token. With a minimum output the gain is at most what lies between the result of the trade alone and that minimum. More generally, at the price at which a single trade ends, no history starting from the same state leaves the reserves worth less than that trade does, up to k units of each token. k is the number of curve points plus four.", "quantifier": "every reachable pool, every trade in any mode, every history before and after it, by anyone", "why_tests_cant": "front-running is a statement about all sequences of trades around one; rounding happens in each of them and must not add up", "anchors": ["programs/dynamic-bonding-curve/src/state/virtual_pool.rs: get_swap_result_from_exact_input, get_swap_result_from_partial_input, get_swap_result_from_exact_output, apply_swap_result", "programs/dynamic-bonding-curve/src/curve.rs", "programs/dynamic-bonding-curve/src/instructions/swap/ix_swap.rs: handle_swap_wrapper"]}
{"id": "C96", "title": "Instructions that do not write what the others use can run in any order", "statement": "The runtime runs transactions in parallel when none of them writes an account that another one uses. For such instructions the schedule makes no difference: each succeeds, or fails with the same error, as it would without the others, and in every order all accounts end up the same. In particular two trades in different pools, made with different token accounts, do not depend on each other, even if the pools share the config and the quote token; the same holds for any two accepted instructions on different pools whose payers and receivers are different outside accounts.", "quantifier": "every state, every two instructions (every batch of any length) with separate accounts, every order", "why_tests_cant": "tests run instructions one after the other in one order; this compares all orders of any number of instructions in every state", "anchors": ["programs/dynamic-bonding-curve/src/instructions/swap/ix_swap.rs: SwapCtx", "programs/dynamic-bonding-curve/src/instructions/partner", "programs/dynamic-bonding-curve/src/instructions/creator", "programs/dynamic-bonding-curve/src/instructions/operator", "programs/dynamic-bonding-curve/src/instructions/migration", "programs/dynamic-bonding-curve/src/instructions/initialize_pool"]}
{"id": "C97", "title": "What partner and creator get is decided by the trades alone, not by when or how they collect it", "statement": "At any point of any history what the partner (or the creator) has been paid, by claims of trading fees, surplus, migration fee and creation fee, and what is still waiting for them add up to what they have earned: their share of the fee of every trade, and of surplus and migration fee once the curve is complete. It is the same for every two histories with the same successful trades, whatever else happens in them and in whatever order; so claiming early, late, often or in parts neither gains nor loses a unit, and nothing that others do, other than trading, costs them anything. The same is true of the protocol's quote tokens, to which the migration adds its fifth of a percent.", "quantifier": "every two histories of a pool from its creation with the same successful trades, every token", "why_tests_cant": "tests claim at a few points of a few histories; this compares all histories of any length", "anchors": ["programs/dynamic-bonding-curve/src/instructions/partner", "programs/dynamic-bonding-curve/src/instructions/creator", "programs/dynamic-bonding-curve/src/instructions/migration/ix_withdraw_migration_fee.rs", "programs/dynamic-bonding-curve/src/state/virtual_pool.rs: claim_partner_trading_fee, claim_creator_trading_fee, apply_swap_result"]}
{"id": "C98", "title": "The calendar does not matter: only the time since creation and between instructions does", "statement": "A config is accepted at every date or, with the same error, at none. Take any history of a pool, and the same history with creation and every instruction moved by the same number of slots and the same number of seconds, later or earlier. Every instruction then succeeds, or fails with the same error, exactly as before; every payment is the same to the token and in the same order; prices, reserves, fees and progress are the same; and every time on record (start of trading, last move of the price, completion, start and cliff of vesting) is moved by just the delay.", "quantifier": "every created config, every creation date, every delay, every history, with clocks between the second day of 1970 and 2^63", "why_tests_cant": "tests run at one date; a comparison with an absolute time, or a clock read that is slots on one side and seconds on the other, shows only at other dates", "anchors": ["programs/dynamic-bonding-curve/src/utils/activation_handler.rs", "programs/dynamic-bonding-curve/src/instructions/swap/ix_swap.rs", "programs/dynamic-bonding-curve/src/state/fee.rs: update_references", "programs/dynamic-bonding-curve/src/base_fee/fee_scheduler.rs", "programs/dynamic-bonding-curve/src/base_fee/fee_rate_limiter.rs", "programs/dynamic-bonding-curve/src/instructions/migration/create_locker.rs", "programs/dynamic-bonding-curve/src/state/config.rs: get_damm_v2_vesting_parameters", "programs/dynamic-bonding-curve/src/instructions/partner/ix_create_config.rs: to_create_vesting_escrow_params"]}
{"id": "C99", "title": "No backdoor: powers follow from roles, names carry no weight", "statement": "Give everybody (traders, referrers, partner, creator, leftover receiver, admins, operators, receivers of payments) another address, one to one. Then every instruction of every history succeeds, or fails with the same error, exactly as before, and leaves the same state and the same payments under the new names. So no address has a power that the config, the pool, or the lists of admins and operators do not give it; and two addresses with no role at a pool's creation could change places in everything that follows. In creating a config only the null address is told apart from others.", "quantifier": "every one-to-one renaming, every pool state (reachable or not), every instruction, every history from creation", "why_tests_cant": "tests use a handful of fixed keys; a special case for one address is invisible unless a test happens to use it", "anchors": ["programs/dynamic-bonding-curve/src/access_control.rs", "programs/dynamic-bonding-curve/src/instructions/admin/auth.rs", "programs/dynamic-bonding-curve/src/state/operator.rs", "programs/dynamic-bonding-curve/src/instructions/migration/ix_withdraw_migration_fee.rs", "programs/dynamic-bonding-curve/src/instructions/migration/meteora_damm", "programs/dynamic-bonding-curve/src/instructions/creator", "programs/dynamic-bonding-curve/src/instructions/partner"]}
{"id": "C100", "title": "Nothing for nothing", "statement": "Whoever receives tokens from a trade has paid at least one unit for it, however small the trade, whatever the fees and however the amounts are rounded. An exact-in or exact-out order always pays. A trade for which nothing is paid is a partial fill that found nothing to fill: the trader and the referrer get nothing, and price, reserves, fees and vaults stay as they were. In the other direction, a trader who asks for at least one unit never pays for nothing.", "quantifier": "every reachable state, every trade (direction, mode, amounts, fees, referrer, time)", "why_tests_cant": "the danger is in amounts of a few units at particular prices and liquidities, where one rounding decides; there are too many combinations to try", "anchors": ["programs/dynamic-bonding-curve/src/instructions/swap/ix_swap.rs", "programs/dynamic-bonding-curve/src/state/virtual_pool.rs get_swap_result_from_exact_input get_swap_result_from_partial_input get_swap_result_from_exact_output", "programs/dynamic-bonding-curve/src/curve.rs"]}
{"id": "C101", "title": "Fees cannot be dodged by trading small", "statement": "Every trade with a volume pays a fee of at least one unit. However the trading of a history is cut into trades, the fees taken over the history are at least the lowest rate of the config (the one its schedule ends at, or the base rate of the rate limiter; never less than 0.25%) times the volume, and at most 99% of it plus less than one unit a trade. Partner and creator together get at least four fifths of them; small trades can only shift the fifth of the protocol and the referrers to them, by less than one unit a trade.", "quantifier": "every reachable state, every trade, every further history of any length, either token", "why_tests_cant": "rounding acts once per trade, so the claim is about sums over unboundedly many small trades", "anchors": ["programs/dynamic-bonding-curve/src/state/config.rs PoolFeesConfig get_fee_on_amount split_fees", "programs/dynamic-bonding-curve/src/state/virtual_pool.rs apply_swap_result", "programs/dynamic-bonding-curve/src/base_fee", "programs/dynamic-bonding-curve/src/instructions/swap/ix_swap.rs"]}
{"id": "C102", "title": "The way does not matter: price and reserve tell the same story", "statement": "Two pools of one config at the same price, or one pool at two times, hold the same quote tokens whatever trades brought them there, up to k units a trade (k = number of curve points plus two). The pool with clearly more quote tokens has the higher price, and the one with the higher price has no fewer quote tokens, up to that rounding; so a progress bar drawn from the reserve does not mislead. The base tokens a pool has sold in all are at most what the curve holds up to its price: when the price is back at the start, the pool has all its base tokens again.", "quantifier": "every accepted config, every two pools of it, every two histories of any length", "why_tests_cant": "compares all pairs of histories, and rounding acts in each of their trades", "anchors": ["programs/dynamic-bonding-curve/src/state/virtual_pool.rs", "programs/dynamic-bonding-curve/src/curve.rs", "programs/dynamic-bonding-curve/src/instructions/swap/ix_swap.rs"]}
{"id": "C103", "title": "The larger the trade, the worse its price", "statement": "Of two trades in one direction, each made in the same state of a pool, the one that brings at least as many tokens takes out no more per token, fees aside, up to k units of rounding on the smaller trade's amounts (k = number of curve points plus three). And the one that takes out clearly more does not bring less, up to k units. This holds whatever the kinds, times, users and fees of the two trades are.", "quantifier": "every accepted config, every reachable state, every two successful trades of one direction in it, of any of the three kinds and any sizes", "why_tests_cant": "compares all pairs of trades over all curves; a test compares two sizes on one curve", "anchors": ["programs/dynamic-bonding-curve/src/state/virtual_pool.rs", "programs/dynamic-bonding-curve/src/curve.rs", "programs/dynamic-bonding-curve/src/instructions/swap/ix_swap.rs"]}
{"id": "C104", "title": "The bid stays below the ask: no profit without a price gap", "statement": "Take any purchase and any sale, in one pool or in two, at one moment or at different ones. What the seller gets per token is at most 0.9975 squared times what the buyer pays per token, times the ratio of the prices the two pools showed before the trades. So whoever sells no more tokens than they bought gets back more than they paid only if the price at the sale was higher than the price at the purchase by more than the factor 1/0.9975 squared, about half a per cent. With the lowest rates of the two configs' own schedules in place of the quarter of a per cent the spread is as much wider. No rounding, kind of trade, fee mode, referral or minimum first fee gives a way around it.", "quantifier": "every two accepted configs, every two reachable states, every successful purchase and sale in them", "why_tests_cant": "compares all pairs of trades over all pairs of pools; an arbitrage through rounding would show for special amounts only", "anchors": ["programs/dynamic-bonding-curve/src/state/virtual_pool.rs", "programs/dynamic-bonding-curve/src/curve.rs", "programs/dynamic-bonding-curve/src/base_fee/fee_scheduler.rs", "programs/dynamic-bonding-curve/src/instructions/swap/ix_swap.rs"]}
{"id": "C105", "title": "No group of traders gains, at the price they began with", "statement": "Over any history of a pool, from any moment on, take everything the traders receive less everything they pay, in both tokens, and value it at the price the pool showed at that moment. The sum, with all fees that anybody collects added to it, is never positive; so even traders who act together, with the partner, the creator and the referrers on their side, cannot take value out of the pool, however they order, split or mix their trades. Without the fees the traders together lose at least a quarter of a per cent of the volume they trade, and at least the rate the config's schedule ends at. Whatever one trader, or any set of traders, gains at that price, the other traders have lost, and the fees besides.", "quantifier": "every accepted config, every reachable state, every history of any length from it, by any number of traders", "why_tests_cant": "ranges over all orders and sizes of any number of trades; an attack would combine particular ones", "anchors": ["programs/dynamic-bonding-curve/src/state/virtual_pool.rs", "programs/dynamic-bonding-curve/src/curve.rs", "programs/dynamic-bonding-curve/src/instructions/swap/ix_swap.rs"]}
{"id": "C106", "title": "Moving the price costs", "statement": "In a pool that charges quote tokens, take any history and any moment in it. Over the whole history the traders together lose, valued at the price before it, at least a quarter of a per cent, and at least the rate the config's schedule ends at, of the quote tokens the curve asks for the way from the price before the history to the price at that moment. In every pool, whatever it charges in, the same share is lost of what the quote reserve falls by between any two moments of the history, and, if the output token is charged, of what the base reserve falls by. So whoever raises the price, for show or to complete the curve, and lets it fall again pays for it in proportion, and no order or splitting of trades avoids that.", "quantifier": "every accepted config (the part on prices: those that charge quote tokens), every reachable state, every history of any length and every moment in it", "why_tests_cant": "ranges over all ways to move the price up and down again", "anchors": ["programs/dynamic-bonding-curve/src/state/virtual_pool.rs", "programs/dynamic-bonding-curve/src/curve.rs", "programs/dynamic-bonding-curve/src/base_fee/fee_scheduler.rs", "programs/dynamic-bonding-curve/src/instructions/swap/ix_swap.rs"]}
{"id": "C107", "title": "Depth: the price moves as far as the liquidity says", "statement": "If every stretch of a config's curve has a liquidity between two numbers, then over any history the price of a pool moves no further than the smaller one allows for the quote tokens that entered or left its reserve, and no less far than the larger one, up to k units a trade (k = number of curve points plus two): a rise of the square-root price by d (in its stored unit) brings at least least*d/2^128 quote tokens, without any allowance, and a fall by d releases at most most*d/2^128. In particular a purchase cannot raise the price by more than what its buyer pays times 2^128 over the least liquidity, whatever the fees. The bounds need hold only of the stretches between the two prices. For the base tokens, a rise from p to p' releases at most most*(1/p - 1/p') and a fall brings at least least*(1/p' - 1/p).", "quantifier": "every accepted config, every two bounds of its liquidity, every reachable state, every history of any length", "why_tests_cant": "ranges over all curves and histories; a bug at a point where two stretches meet would show for special amounts only", "anchors": ["programs/dynamic-bonding-curve/src/state/virtual_pool.rs", "programs/dynamic-bonding-curve/src/curve.rs", "programs/dynamic-bonding-curve/src/state/config.rs", "programs/dynamic-bonding-curve/src/instructions/swap/ix_swap.rs"]}
