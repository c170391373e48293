{
 "claims": [
  {
   "property": "C01",
   "status": "proved",
   "theorems": [
    "C01_swap_conserves_tokens"
   ],
   "note": ""
  },
  {
   "property": "C02",
   "status": "proved",
   "theorems": [
    "C02_exact_in"
   ],
   "note": ""
  },
  {
   "property": "C03",
   "status": "proved",
   "theorems": [
    "C03_exact_out"
   ],
   "note": ""
  },
  {
   "property": "C04",
   "status": "proved",
   "theorems": [
    "C04_partial_fill",
    "C04_outside_limiter",
    "C04_limiter_overcharge_refuted"
   ],
   "note": "The unconditional claim paid <= amount_in is false while the rate limiter is active (witness proved); the exact bound on the excess is proved for every swap."
  },
  {
   "property": "C06",
   "status": "proved",
   "theorems": [
    "C06_fee_split"
   ],
   "note": ""
  },
  {
   "property": "C07",
   "status": "proved",
   "theorems": [
    "C07_partner_creator_split"
   ],
   "note": ""
  },
  {
   "property": "C08",
   "status": "proved",
   "theorems": [
    "C08_fee_token"
   ],
   "note": ""
  },
  {
   "property": "C10",
   "status": "proved",
   "theorems": [
    "C10_price_direction"
   ],
   "note": ""
  },
  {
   "property": "C11",
   "status": "proved",
   "theorems": [
    "C11_rounding_favours_pool"
   ],
   "note": ""
  },
  {
   "property": "C09",
   "status": "proved",
   "theorems": [
    "C09_price_in_curve"
   ],
   "note": ""
  },
  {
   "property": "C12",
   "status": "proved",
   "theorems": [
    "C12_no_extraction",
    "C12_traders_never_gain"
   ],
   "note": ""
  },
  {
   "property": "C13",
   "status": "proved",
   "theorems": [
    "C13_reserve_covers_curve",
    "C13_sell_is_payable"
   ],
   "note": ""
  },
  {
   "property": "C14",
   "status": "proved",
   "theorems": [
    "C14_end_of_curve_completes"
   ],
   "note": ""
  },
  {
   "property": "C15",
   "status": "proved",
   "theorems": [
    "C15_completion_is_final"
   ],
   "note": ""
  },
  {
   "property": "C24",
   "status": "proved",
   "theorems": [
    "C24_legal_edges",
    "C24_progress_monotone",
    "C24_migrates_once"
   ],
   "note": ""
  },
  {
   "property": "C16",
   "status": "proved",
   "theorems": [
    "C16_never_insufficient_for_migration",
    "C16_base_left_at_completion"
   ],
   "note": ""
  },
  {
   "property": "C17",
   "status": "proved",
   "theorems": [
    "C17_solvent",
    "C17_solvent_while_trading",
    "C17_swaps_are_funded",
    "C17_partner_can_claim",
    "C17_creator_can_claim",
    "C17_protocol_can_claim",
    "C17_partner_can_withdraw_surplus",
    "C17_creator_can_withdraw_surplus",
    "C17_migration_fee_can_be_withdrawn",
    "C17_vesting_can_be_locked",
    "C17_leftover_can_be_withdrawn",
    "C17_creation_fee_can_be_claimed"
   ],
   "note": ""
  },
  {
   "property": "C18",
   "status": "proved",
   "theorems": [
    "C18_unclaimed_plus_claimed",
    "C18_claim_amounts"
   ],
   "note": ""
  },
  {
   "property": "C19",
   "status": "proved",
   "theorems": [
    "C19_protocol_cap",
    "C19_surplus_once"
   ],
   "note": ""
  },
  {
   "property": "C48",
   "status": "proved",
   "theorems": [
    "C48_metrics_exact",
    "C48_metrics_never_decrease"
   ],
   "note": ""
  },
  {
   "property": "C20",
   "status": "proved",
   "theorems": [
    "C20_shares_sum",
    "C20_surplus_paid_once",
    "C20_surplus_after_completion"
   ],
   "note": ""
  },
  {
   "property": "C21",
   "status": "proved",
   "theorems": [
    "C21_shares_sum",
    "C21_migration_quote",
    "C21_migration_fee_paid_once",
    "C21_migration_fee_after_completion"
   ],
   "note": ""
  },
  {
   "property": "C22",
   "status": "proved",
   "theorems": [
    "C22_creation_fee_paid_once",
    "C22_creation_fee_access",
    "C22_rent_kept"
   ],
   "note": ""
  },
  {
   "property": "C23",
   "status": "proved",
   "theorems": [
    "C23_leftover",
    "C23_leftover_once"
   ],
   "note": ""
  },
  {
   "property": "C25",
   "status": "proved",
   "theorems": [
    "C25_lp_conserved",
    "C25_amounts",
    "C25_each_once",
    "C25_can_be_taken"
   ],
   "note": ""
  },
  {
   "property": "C46",
   "status": "proved",
   "theorems": [
    "C46_transfer_gated",
    "C46_creator_only_changes_by_transfer",
    "C46_lp_stays_with_creator"
   ],
   "note": ""
  },
  {
   "property": "C39",
   "status": "proved",
   "theorems": [
    "C39_every_payment_is_authorised",
    "C39_partner_funds_need_fee_claimer",
    "C39_creator_funds_need_creator",
    "C39_protocol_funds_need_operator"
   ],
   "note": ""
  },
  {
   "property": "C40",
   "status": "proved",
   "theorems": [
    "C40_create",
    "C40_bad_masks_rejected",
    "C40_only_admins_change_permissions",
    "C40_closed",
    "C40_operations",
    "C40_zap"
   ],
   "note": ""
  },
  {
   "property": "C51",
   "status": "proved",
   "theorems": [
    "C51_burn_at_migration",
    "C51_supply_floor"
   ],
   "note": ""
  },
  {
   "property": "C49",
   "status": "not_applicable",
   "theorems": [],
   "note": "Rollback of a failed instruction is done by the Solana runtime, not by this code; the model's step function assumes it by definition."
  },
  {
   "property": "C35",
   "status": "proved",
   "theorems": [
    "C35_sqrt_exact"
   ],
   "note": ""
  },
  {
   "property": "C36",
   "status": "proved",
   "theorems": [
    "C36_pow_accurate",
    "C36_pow_reciprocal",
    "C36_pow_edges"
   ],
   "note": ""
  },
  {
   "property": "C29",
   "status": "proved",
   "theorems": [
    "C29_linear",
    "C29_linear_value"
   ],
   "note": ""
  },
  {
   "property": "C30",
   "status": "proved",
   "theorems": [
    "C30_exponential",
    "C30_exponential_value"
   ],
   "note": ""
  },
  {
   "property": "C05",
   "status": "proved",
   "theorems": [
    "C05_fee_rate"
   ],
   "note": ""
  },
  {
   "property": "C31",
   "status": "proved",
   "theorems": [
    "C31_progressive_fee",
    "C31_any_mode",
    "C31_schedule_monotone",
    "C31_otherwise_cliff",
    "C05_fee_rate",
    "C31_monotone_charge_refuted"
   ],
   "note": "C31_any_mode bounds the fee of every swap mode from both sides. The last theorem is a witness that the charged fee, as opposed to the schedule, can drop when the amount grows by one unit."
  },
  {
   "property": "C32",
   "status": "proved",
   "theorems": [
    "C32_round_trip",
    "C32_round_trip_down"
   ],
   "note": ""
  },
  {
   "property": "C33",
   "status": "proved",
   "theorems": [
    "C33_accumulator_bounded",
    "C33_dynamic_fee_bounded",
    "C33_update_never_fails"
   ],
   "note": "For every reachable pool: accumulator and reference never exceed the configured maximum; the dynamic part of the fee is defined and at most ceil((max*bin_step)^2*control/1e11); the update never fails for any move inside the price range once the unix clock is past 65535 s."
  },
  {
   "property": "C34",
   "status": "proved",
   "theorems": [
    "C34_volatility_rules"
   ],
   "note": "Exact update rules per swap: references by elapsed time, accumulator by bins moved from the reference price, timestamp moved iff the price moved at least one bin."
  },
  {
   "property": "C26",
   "status": "proved",
   "theorems": [
    "C26_distribution_complete"
   ],
   "note": "The five percentage shares are floors; the creator's unlocked part takes the rounding."
  },
  {
   "property": "C27",
   "status": "proved",
   "theorems": [
    "C27_adjust"
   ],
   "note": "Exact shares of the adjusted second position: unlocked first, the rest between vested and permanent."
  },
  {
   "property": "C28",
   "status": "proved",
   "theorems": [
    "C28_config_share",
    "C28_tenth_locked"
   ],
   "note": "For every accepted config, every liquidity and migration time: one day later at least a tenth of the distributed liquidity is still locked, up to 200000 Q64.64 units of rounding. Stated for the distribution before adjust_liquidity (C27)."
  },
  {
   "property": "C37",
   "status": "proved",
   "theorems": [
    "C37_accepted_config_well_formed",
    "C37_terms_as_given"
   ],
   "note": ""
  },
  {
   "property": "C38",
   "status": "proved",
   "theorems": [
    "C38_initial_supply",
    "C38_config_without_pool_refuted"
   ],
   "note": "the refuted theorem is a finding: a config without fixed supply is accepted although its supply overflows and no pool can be created from it"
  },
  {
   "property": "C45",
   "status": "proved",
   "theorems": [
    "C45_liquidity_vesting",
    "C45_token_vesting"
   ],
   "note": "DAMM v2 schedules add up to the vested liquidity, pass the validation of the vesting parameters and unlock monotonically from 0 to all; the escrow of locked base tokens receives exactly its schedule's total."
  },
  {
   "property": "C50",
   "status": "proved",
   "theorems": [
    "C50_swap_buffer",
    "C50_supply_has_buffer"
   ],
   "note": ""
  },
  {
   "property": "C41",
   "status": "proved",
   "theorems": [
    "C41_min_fee_only_in_bundle",
    "C41_flag_means_no_swap",
    "C41_at_most_once",
    "C41_same_transaction"
   ],
   "note": ""
  },
  {
   "property": "C42",
   "status": "proved",
   "theorems": [
    "C42_limited_once_per_transaction",
    "C42_one_checked_swap",
    "C42_nothing_before",
    "C42_unlimited_nested_refuted"
   ],
   "note": "Over all trees of nested instructions. The refuted theorem shows that the stronger reading (no other swap at all before) is false: an unlimited sell may hide one call deeper."
  },
  {
   "property": "C44",
   "status": "proved",
   "theorems": [
    "C44_initial_liquidity_affordable",
    "C44_second_liquidity_affordable"
   ],
   "note": "for the DAMM v2 amount formulas given in PropMig.v (the external program is not in /repo)"
  },
  {
   "property": "C52",
   "status": "proved",
   "theorems": [
    "C52_damm_v2_migration_succeeds",
    "C52_damm_v1_migration_succeeds",
    "C52_ready_for_migration"
   ],
   "note": "time + 2 years must fit in u64; the external program is assumed to take the amounts of PropMig.v"
  },
  {
   "property": "C47",
   "status": "proved",
   "theorems": [
    "C47_sell_back"
   ],
   "note": "exact-in and partial-fill sales (modes 0 and 1) without a minimum; needs room in the 64-bit base vault and quote fee metrics"
  },
  {
   "property": "C53",
   "status": "proved",
   "theorems": [
    "C53_purchase_succeeds",
    "C53_open_pool_can_freeze_refuted"
   ],
   "note": "purchase liveness and completion, with or without the rate limiter in force; the second theorem is a finding: the 64-bit cumulative metrics can fill up and freeze a pool for good"
  },
  {
   "property": "C43",
   "status": "proved",
   "theorems": [
    "C43_quote_matches",
    "C43_quote_executes",
    "C43_quote_refused"
   ],
   "note": "all three quote functions; anyhow messages are mapped to error codes"
  },
  {
   "property": "C54",
   "status": "proved",
   "theorems": [
    "C54_more_in_more_out",
    "C54_more_out_costs_more",
    "C54_rate_limiter_refuted"
   ],
   "note": "the refuted theorem is a finding about the rate limiter"
  },
  {
   "property": "C55",
   "status": "proved",
   "theorems": [
    "C55_in_covers_out",
    "C55_out_within_in",
    "C55_same_output_refuted"
   ],
   "note": "the refuted theorem shows why the second part needs a strict inequality"
  },
  {
   "property": "C56",
   "status": "proved",
   "theorems": [
    "C56_no_gain_from_splitting",
    "C56_no_gain_from_many_parts",
    "C56_dynamic_fee_refuted"
   ],
   "note": "the refuted theorem is a finding: a dust trade refreshes a stale volatility and lowers the dynamic fee"
  },
  {
   "property": "C57",
   "status": "proved",
   "theorems": [
    "C57_token_authorities",
    "C57_supply_changes",
    "C57_supply_never_grows",
    "C57_supply_is_issued"
   ],
   "note": ""
  },
  {
   "property": "C58",
   "status": "proved",
   "theorems": [
    "C58_damm_v1_deposit",
    "C58_damm_v2_price"
   ],
   "note": ""
  },
  {
   "property": "C59",
   "status": "proved",
   "theorems": [
    "C59_positions"
   ],
   "note": "that a second position is created whenever liquidity is left is C52"
  },
  {
   "property": "C60",
   "status": "proved",
   "theorems": [
    "C60_pools_follow_the_model",
    "C60_pools_are_solvent",
    "C60_pools_are_separate",
    "C60_pool_keys_are_final",
    "C60_instructions_follow_the_model"
   ],
   "note": "account-level model (AcctModel.v): addresses derived from seeds are assumed not to collide"
  },
  {
   "property": "C61",
   "status": "proved",
   "theorems": [
    "C61_other_pools_untouched",
    "C61_who_can_lose_tokens",
    "C61_configs_are_final"
   ],
   "note": ""
  },
  {
   "property": "C62",
   "status": "proved",
   "theorems": [
    "C62_protocol_fees_to_treasury",
    "C62_zapped_fees_to_operator",
    "C62_leftover_to_receiver",
    "C62_lp_tokens_to_owner"
   ],
   "note": ""
  },
  {
   "property": "C63",
   "status": "proved",
   "theorems": [
    "C63_tokens_add_up",
    "C63_few_accounts_change",
    "C63_trades_and_claims_conserve"
   ],
   "note": "the mint of new DAMM v1 LP tokens is excluded in the two instructions where the external program mints or locks it"
  },
  {
   "property": "C64",
   "status": "proved",
   "theorems": [
    "C64_own_terms",
    "C64_fee_falls",
    "C64_fixed_terms_v2",
    "C64_fixed_terms_v1",
    "C64_right_config_accepted_v2",
    "C64_right_config_accepted_v1",
    "C64_same_migration"
   ],
   "note": "the DAMM programs are trusted to apply the terms they are given; the byte layout is that of idls/damm_v2.json"
  },
  {
   "property": "C65",
   "status": "proved",
   "theorems": [
    "C65_fair_execution"
   ],
   "note": "the unit of the price bound is one step of the stored square-root price"
  },
  {
   "property": "C66",
   "status": "proved",
   "theorems": [
    "C66_authority_keeps_its_sol",
    "C66_who_can_lose_sol",
    "C66_advance_is_repaid",
    "C66_accounts_stay",
    "C66_pool_starts_funded",
    "C66_claims_are_exact",
    "C66_advance_succeeds",
    "C66_account_cost"
   ],
   "note": "about the lamport model LampModel: called programs are arbitrary relations constrained only by the runtime rules"
  },
  {
   "property": "C67",
   "status": "proved",
   "theorems": [
    "C67_events_tell_payments",
    "C67_replay",
    "C67_completion_event",
    "C67_completion_once",
    "C67_swap_event",
    "C67_whole_story",
    "C67_creation_events"
   ],
   "note": "instructions that emit nothing in the code (zap, locker creation, both migrations, LP lock and claim, operators) are outside the first claim; protocol fee counters and migration progress are not part of the replayed state"
  },
  {
   "property": "C68",
   "status": "proved",
   "theorems": [
    "C68_support_stays",
    "C68_transfers_exact",
    "C68_vault_safe",
    "C68_vault_pays",
    "C68_never_frozen",
    "C68_base_mint",
    "C68_config_quote",
    "C68_frozen_vault_refuted"
   ],
   "note": "The token programs are restated in TokenModel.v (they are not part of the repository). That a freeze authority can stop a vault is C68_frozen_vault_refuted."
  },
  {
   "property": "C69",
   "status": "proved",
   "theorems": [
    "C69_quote_accounted",
    "C69_base_before_migration",
    "C69_base_after_migration",
    "C69_sol_accounted",
    "C69_lp_accounted",
    "C69_untaken",
    "C69_nothing_left_behind",
    "C69_concentrated_takes_all",
    "C69_product_takes_all"
   ],
   "note": "Between migration and the withdrawal of the leftover (fixed supply) the base vault also holds the leftover (C23). That the DAMM v2 pool charges by its published formulas is a hypothesis of the last two theorems."
  },
  {
   "property": "C70",
   "status": "proved",
   "theorems": [
    "C70_partner_metadata",
    "C70_pool_metadata",
    "C70_can_publish",
    "C70_reads_what_was_sent",
    "C70_written_once",
    "C70_authentic",
    "C70_no_other_effect",
    "C70_legacy_operators"
   ],
   "note": "Borsh encoding and Anchor's account initialization are restated in MetaModel.v (not part of the repository). Rent is left to C66."
  },
  {
   "property": "C71",
   "status": "proved",
   "theorems": [
    "C71_only_trades_matter",
    "C71_nothing_gets_in_the_way"
   ],
   "note": ""
  },
  {
   "property": "C72",
   "status": "proved",
   "theorems": [
    "C72_waiting_buys_no_less",
    "C72_waiting_costs_no_more"
   ],
   "note": "What a partial-fill swap pays is not claimed to fall: the limiter's inverse can overcharge (C04_limiter_overcharge_refuted)."
  },
  {
   "property": "C73",
   "status": "proved",
   "theorems": [
    "C73_equal_treatment",
    "C73_limit_only_refuses"
   ],
   "note": ""
  },
  {
   "property": "C74",
   "status": "proved",
   "theorems": [
    "C74_can_graduate"
   ],
   "note": ""
  },
  {
   "property": "C75",
   "status": "proved",
   "theorems": [
    "C75_pool_stored",
    "C75_config_stored",
    "C75_no_gaps",
    "C75_data_decides"
   ],
   "note": "The 8-byte account discriminator (a hash) is not modelled; addresses are arbitrary 256-bit numbers."
  },
  {
   "property": "C76",
   "status": "proved",
   "theorems": [
    "C76_protocol_share",
    "C76_liquidity_share",
    "C76_price_not_raised",
    "C76_price_never_raised_refuted"
   ],
   "note": "The unconditional price claim of tests/test_migration_fee.rs is false of the code: C76_price_never_raised_refuted gives an accepted config. The deviation is within the rounding bound of C58."
  },
  {
   "property": "C77",
   "status": "proved",
   "theorems": [
    "C77_reserve_tracks_curve",
    "C77_surplus_is_rounding"
   ],
   "note": "Sums C65 over histories; the lower half is C13."
  },
  {
   "property": "C78",
   "status": "proved",
   "theorems": [
    "C78_any_order"
   ],
   "note": "two claims of the same fees (partner twice, or treasury claim and zap) share one entitlement and are not covered; C18 and C69 bound their sum"
  },
  {
   "property": "C79",
   "status": "proved",
   "theorems": [
    "C79_every_pool_is_mirrored",
    "C79_never_turned_away"
   ],
   "note": "instructions on an existing pool; the creation of pools and configs is in C81"
  },
  {
   "property": "C80",
   "status": "proved",
   "theorems": [
    "C80_only_the_right_accounts",
    "C80_only_pools",
    "C80_only_fresh_accounts"
   ],
   "note": "accounts of the external AMM programs (DAMM configs, position accounts) are not in the account model"
  },
  {
   "property": "C81",
   "status": "proved",
   "theorems": [
    "C81_nobody_squats",
    "C81_a_pool_can_be_opened",
    "C81_metadata_can_be_created",
    "C81_a_config_can_be_stored"
   ],
   "note": "the condition that the supply fits is needed: C38_config_without_pool_refuted; rent and payment of the creation fee by the payer are not modelled; a config that appoints the all-zero key as authority over Token-2022 tokens opens no pool (C85_zero_partner_refuted)"
  },
  {
   "property": "C82",
   "status": "proved",
   "theorems": [
    "C82_buy_exactly",
    "C82_buy_exactly_limited",
    "C82_buy_no_more",
    "C82_sell_exactly",
    "C82_sell_no_more",
    "C82_limit_only"
   ],
   "note": "for purchases the sufficient and the necessary bound differ by one token (below / at most); for sales the bound is exact"
  },
  {
   "property": "C83",
   "status": "proved",
   "theorems": [
    "C83_tenth_locked_damm_v2",
    "C83_tenth_locked_damm_v1"
   ],
   "note": "the DAMM v2 formulas are hypotheses on what the external program reports (damm_as_specified), as in C44 and C52"
  },
  {
   "property": "C84",
   "status": "proved",
   "theorems": [
    "C84_holders_add_up"
   ],
   "note": "the token programs are restated in TokenModel.v (not part of the repository); an earlier token at the same address, if any, must have no balances left"
  },
  {
   "property": "C85",
   "status": "proved",
   "theorems": [
    "C85_only_the_appointed",
    "C85_immutable",
    "C85_change_is_authorised",
    "C85_appointed_can",
    "C85_can_be_named",
    "C85_zero_partner_refuted"
   ],
   "note": "the Metaplex and Token-2022 programs are restated in NameModel.v (not part of the repository); C85_zero_partner_refuted: a config that appoints the all-zero key can open no Token-2022 pool"
  },
  {
   "property": "C86",
   "status": "proved",
   "theorems": [
    "C86_exact_input_is_a_partial_fill",
    "C86_partial_fill_stops_only_at_the_end"
   ],
   "note": "complements C55 (exact output) and C04 (what a partial fill charges)"
  },
  {
   "property": "C87",
   "status": "proved",
   "theorems": [
    "C87_never_better_than_shown",
    "C87_never_worse_than_reached",
    "C87_life",
    "C87_life_worst"
   ],
   "note": "follows from C01, C11 and C65 by comparing the areas under the curve with the prices at its ends"
  },
  {
   "property": "C88",
   "status": "proved",
   "theorems": [
    "C88_one_rate",
    "C88_only_trades_change_it",
    "C88_cleared",
    "C88_quiet_trade_pays_base_refuted"
   ],
   "note": "the natural reading that a quiet pool charges only the base rate is refuted with a witness"
  },
  {
   "property": "C89",
   "status": "proved",
   "theorems": [
    "C89_only",
    "C89_accepted",
    "C89_exactly"
   ],
   "note": "completeness as well as soundness of the acceptance of configs; for exponential schedules the boundary is exact up to one part in 10^9, and C89_case_rounding shows that the program's rounding needs this tolerance"
  },
  {
   "property": "C90",
   "status": "proved",
   "theorems": [
    "C90_accepted_exactly_when_allowed",
    "C90_migrate_v2_only_when_allowed",
    "C90_migrate_v2_when_allowed",
    "C90_purchase_outcome",
    "C90_sale_outcome",
    "C90_swap_needs"
   ],
   "note": "the rules are stated by what happened in the history, not by the pool's flags; for LP tokens by the amounts and flags of the metadata (their meaning is C25); for DAMM v2 the sufficient direction assumes that the DAMM program takes what its formulas give (C52)"
  },
  {
   "property": "C91",
   "status": "proved",
   "theorems": [
    "C91_larger_fee",
    "C91_limiter_fee",
    "C91_limiter_net",
    "C91_limiter_with_surcharge_refuted"
   ],
   "note": "the refuted theorem is a finding: with a rate limiter and a dynamic fee a larger buy can receive much less"
  },
  {
   "property": "C92",
   "status": "proved",
   "theorems": [
    "C92_first_buys_cheaper",
    "C92_higher_sells_dearer"
   ],
   "note": "from C11, C65 and the comparison of areas of the curve used for C87"
  },
  {
   "property": "C93",
   "status": "proved",
   "theorems": [
    "C93_buy_and_sell_back",
    "C93_sell_and_buy_back",
    "C93_round_trip",
    "C93_reverse_round_trip"
   ],
   "note": "the fees are what was paid and did not reach the reserve, plus what left the reserve and was not received; their amount is the subject of C88 and C31"
  },
  {
   "property": "C94",
   "status": "proved",
   "theorems": [
    "C94_same_instructions",
    "C94_same_histories",
    "C94_same_configs",
    "C94_same_amounts"
   ],
   "note": "all three places in the program with the feature local"
  },
  {
   "property": "C95",
   "status": "proved",
   "theorems": [
    "C95_reserves_worth_no_less",
    "C95_around_a_purchase",
    "C95_around_a_sale",
    "C95_minimum_limits_the_damage"
   ],
   "note": "gains are measured at the reserves, that is before the fees the others pay, which only lower them"
  },
  {
   "property": "C96",
   "status": "proved",
   "theorems": [
    "C96_same_outcome",
    "C96_order_does_not_matter",
    "C96_any_schedule",
    "C96_trades_in_different_pools",
    "C96_pools_do_not_wait_for_each_other"
   ],
   "note": "the accounts an instruction uses include the vaults, the config, the metadata and the LP account of its pool even where the caller does not pass them; the two instructions that change the operator list are left out"
  },
  {
   "property": "C97",
   "status": "proved",
   "theorems": [
    "C97_received_or_waiting",
    "C97_only_trades_matter",
    "C97_claiming_often_gains_nothing",
    "C97_nothing_else_costs",
    "C97_protocol_quote",
    "C97_protocol_too"
   ],
   "note": "base, quote and SOL; LP tokens are the subject of C25"
  },
  {
   "property": "C98",
   "status": "proved",
   "theorems": [
    "C98_creation",
    "C98_any_date",
    "C98_same_payments",
    "C98_same_trade",
    "C98_config"
   ],
   "note": "the saturating cliff time of the vesting escrow is recomputed from the moved start"
  },
  {
   "property": "C99",
   "status": "proved",
   "theorems": [
    "C99_names_carry_no_weight",
    "C99_whole_life",
    "C99_config",
    "C99_strangers"
   ],
   "note": "the hard-coded admin list is a parameter of the model and is renamed with the rest; the treasury, the mints and the other programs are not people and keep their names"
  },
  {
   "property": "C100",
   "status": "proved",
   "theorems": [
    "C100_nothing_for_nothing",
    "C100_named_amounts",
    "C100_empty_trade",
    "C100_no_gift"
   ],
   "note": "an empty trade still sets the mark that the pool has traded"
  },
  {
   "property": "C101",
   "status": "proved",
   "theorems": [
    "C101_no_free_trade",
    "C101_fees_cannot_be_dodged",
    "C101_fees_are_bounded",
    "C101_four_fifths"
   ],
   "note": "the other side of it: a trade that pays less than five units of fee leaves nothing to the protocol (C101_case_dust)"
  },
  {
   "property": "C102",
   "status": "proved",
   "theorems": [
    "C102_same_price_same_reserve",
    "C102_higher_price_more_reserve",
    "C102_more_reserve_higher_price",
    "C102_sold_at_most_the_curve",
    "C102_all_sold_back"
   ],
   "note": "follows from C77 and, for base tokens, from C11 summed over the history; how far the base tokens sold may fall short of the curve is bounded per trade in C65"
  },
  {
   "property": "C103",
   "status": "proved",
   "theorems": [
    "C103_larger_is_dearer",
    "C103_no_bargain"
   ],
   "note": "amounts are changes of the reserves, that is, without fees; how the fee rate may depend on the size (rate limiter) is C04 and C91"
  },
  {
   "property": "C104",
   "status": "proved",
   "theorems": [
    "C104_spread",
    "C104_spread_own_rates",
    "C104_no_arbitrage"
   ],
   "note": "exact, with all fees and without any allowance for rounding"
  },
  {
   "property": "C105",
   "status": "proved",
   "theorems": [
    "C105_no_group_gains",
    "C105_trading_costs",
    "C105_trading_costs_own_rate",
    "C105_others_paid"
   ],
   "note": "exact; the price may move either way, the value is taken at the price before the history. Funds that leave the pool outside trading (claims, migration) are the subject of C18-C23 and C69"
  },
  {
   "property": "C106",
   "status": "proved",
   "theorems": [
    "C106_pumping_costs",
    "C106_pumping_costs_own_rate",
    "C106_swings_cost"
   ],
   "note": "the first two are for configs that charge quote tokens, the third for all"
  },
  {
   "property": "C107",
   "status": "proved",
   "theorems": [
    "C107_depth",
    "C107_depth_local",
    "C107_depth_base",
    "C107_impact",
    "C107_impact_sale"
   ],
   "note": "both directions and both bounds for the quote tokens, the bounds that favour the pool being exact, and the latter also for the base tokens; the local form needs the liquidity only of the stretches passed"
  }
 ]
}