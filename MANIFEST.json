{
 "claims": [
  {
   "property": "C01",
   "status": "proved",
   "theorems": [
    "C01_supply_query_exact"
   ],
   "note": ""
  },
  {
   "property": "C02",
   "status": "proved",
   "theorems": [
    "C02_mint_takes_price_refunds_rest",
    "C02_mint_accepted"
   ],
   "note": ""
  },
  {
   "property": "C03",
   "status": "proved",
   "theorems": [
    "C03_mint_creates_and_splits"
   ],
   "note": ""
  },
  {
   "property": "C04",
   "status": "proved",
   "theorems": [
    "C04_burn_pays_share",
    "C04_burn_accepted_iff",
    "C04_burn_lists_coins_in_order"
   ],
   "note": ""
  },
  {
   "property": "C05",
   "status": "proved",
   "theorems": [
    "C05_shortfall_bounded",
    "C05_shortfall_per_mint"
   ],
   "note": ""
  },
  {
   "property": "C06",
   "status": "partial",
   "theorems": [
    "C06_always_redeemable_refuted",
    "C06_backed_burn_accepted_partial"
   ],
   "note": "Ideal statement refuted (rounding shortfall after two mints); proved under the hypothesis that balances cover liabilities, whose distance is bounded by C05."
  },
  {
   "property": "C07",
   "status": "partial",
   "theorems": [
    "C07_mint_then_burns_no_profit_partial",
    "C07_split_mints_no_profit_refuted",
    "C07_profit_bounded"
   ],
   "note": "Proved for one mint followed by any burns; refuted for several mints followed by a combined burn, whose profit is proved to stay below one base unit per mint."
  },
  {
   "property": "C08",
   "status": "proved",
   "theorems": [
    "C08_accrual_conserves",
    "C08_rate_between_simple_and_compound",
    "C08_rate_accurate"
   ],
   "note": ""
  },
  {
   "property": "C09",
   "status": "proved",
   "theorems": [
    "C09_accrual_idempotent",
    "C09_nothing_while_frozen",
    "C09_nothing_while_rebalancing",
    "C09_restart_at_finalize"
   ],
   "note": ""
  },
  {
   "property": "C10",
   "status": "proved",
   "theorems": [
    "C10_realize_pays_claims",
    "C10_realize_iff",
    "C10_claims_only_paid_by_realize"
   ],
   "note": ""
  },
  {
   "property": "C11",
   "status": "partial",
   "theorems": [
    "C11_claims_never_forfeited_refuted",
    "C11_claims_persist_partial"
   ],
   "note": "Refuted: a fee update by governance drops unpaid claims. Proved for every other operation."
  },
  {
   "property": "C12",
   "status": "partial",
   "theorems": [
    "C12_freeze_survives_rebalance_refuted",
    "C12_freeze_persists_partial"
   ],
   "note": "Refuted: Finalize always unfreezes. Proved for every operation except fee updates and Finalize."
  },
  {
   "property": "C13",
   "status": "partial",
   "theorems": [
    "C13_never_bricked_refuted",
    "C13_accrual_possible_partial",
    "C13_accrual_iff"
   ],
   "note": "Refuted: after a long idle time every accruing operation is rejected. Proved possible while compound interest stays at most 100% and nothing overflows; C13_accrual_iff gives the exact condition."
  },
  {
   "property": "C14",
   "status": "proved",
   "theorems": [
    "C14_paused_blocks_mint_and_burn",
    "C14_pause_changes_nothing_else",
    "C14_pause_iff",
    "C14_release_iff"
   ],
   "note": ""
  },
  {
   "property": "C15",
   "status": "proved",
   "theorems": [
    "C15_gov_changes_only_by_acceptance",
    "C15_nominee_was_nominated"
   ],
   "note": ""
  },
  {
   "property": "C16",
   "status": "proved",
   "theorems": [
    "C16_authorised"
   ],
   "note": ""
  },
  {
   "property": "C17",
   "status": "proved",
   "theorems": [
    "C17_rebalance_excludes",
    "C17_only_inside_rebalance",
    "C17_nothing_else_moves"
   ],
   "note": ""
  },
  {
   "property": "C18",
   "status": "proved",
   "theorems": [
    "C18_deflate_limits"
   ],
   "note": ""
  },
  {
   "property": "C19",
   "status": "proved",
   "theorems": [
    "C19_inflate_limits"
   ],
   "note": ""
  },
  {
   "property": "C20",
   "status": "proved",
   "theorems": [
    "C20_deflation_never_undershoots"
   ],
   "note": ""
  },
  {
   "property": "C21",
   "status": "proved",
   "theorems": [
    "C21_finalize_iff",
    "C21_finalize_result"
   ],
   "note": ""
  },
  {
   "property": "C22",
   "status": "partial",
   "theorems": [
    "C22_rebalance_can_finish_refuted",
    "C22_stuck_forever",
    "C22_dust_forever",
    "C22_closing_sale_exact",
    "C22_stuck_gap_forever",
    "C22_stuck_share_forever",
    "C22_closable_bound",
    "C22_closable_multiple",
    "C22_closable_large",
    "C22_closable_iff",
    "C22_finish_at_targets_iff",
    "C22_finish_into_reserve_iff",
    "C22_finish_split_iff",
    "C22_can_sell_partial"
   ],
   "note": "Refuted: some rebalances can never be finished. What trades of whole base units can close is characterised exactly; exact conditions for finishing once all targets are reached, when selling into the reserve denom only, and when selling at the market into any weights of whole parts from a reserve of whole base units. Otherwise (reserve denom itself to be sold, odd shares in the reserve): targets reachable, shares left open."
  },
  {
   "property": "C23",
   "status": "partial",
   "theorems": [
    "C23_weights_tradable_refuted",
    "C23_positive_last_weight_partial",
    "C23_zero_last_weight_fails",
    "C23_distribution_iff"
   ],
   "note": "Refuted for a last weight of zero. C23_distribution_iff gives the exact condition under which proceeds can be distributed, and what every denom gets; C23's other theorems give the positive case."
  },
  {
   "property": "C24",
   "status": "proved",
   "theorems": [
    "C24_distribution_by_weight",
    "C24_distribution_loss"
   ],
   "note": ""
  },
  {
   "property": "C25",
   "status": "partial",
   "theorems": [
    "C25_deflate_sells_target_refuted",
    "C25_deflate_never_sells_target"
   ],
   "note": "Refuted in the strongest form: a non-reserve deflate never moves the deflated denom."
  },
  {
   "property": "C26",
   "status": "partial",
   "theorems": [
    "C26_inflate_buys_target_refuted",
    "C26_inflate_buys_last_hop",
    "C26_one_hop_buys_target_partial"
   ],
   "note": "Refuted for multi-hop routes; exact effect proved for all routes, the ideal for one-hop routes."
  },
  {
   "property": "C27",
   "status": "proved",
   "theorems": [
    "C27_cooldown_respected"
   ],
   "note": ""
  },
  {
   "property": "C28",
   "status": "proved",
   "theorems": [
    "C28_stored_denoms_distinct"
   ],
   "note": ""
  },
  {
   "property": "C29",
   "status": "proved",
   "theorems": [
    "C29_simulate_burn_agrees",
    "C29_simulate_burn_fails_alike"
   ],
   "note": ""
  },
  {
   "property": "C30",
   "status": "partial",
   "theorems": [
    "C30_simulate_mint_agrees_refuted",
    "C30_simulate_mint_partial",
    "C30_agrees_iff"
   ],
   "note": "Refuted: SimulateMint ignores the minimum fee and the minimum price of one. C30_agrees_iff: an accepted mint was predicted exactly when fee and prices reach one base unit before rounding."
  },
  {
   "property": "C31",
   "status": "partial",
   "theorems": [
    "C31_portfolio_shows_accrual",
    "C31_fee_shows_accrual",
    "C31_config_shows_pause",
    "C31_later_never_larger_refuted",
    "C31_never_above_stored_partial"
   ],
   "note": "Queries agree with execution; monotonicity over time refuted beyond 2^32 seconds."
  },
  {
   "property": "C32",
   "status": "proved",
   "theorems": [
    "C32_unforced_migration",
    "C32_forced_migration",
    "C32_versions_grow"
   ],
   "note": ""
  },
  {
   "property": "C33",
   "status": "proved",
   "theorems": [
    "C33_pages_cover_everything",
    "C33_trade_pages",
    "C33_trade_listing",
    "C33_limit_rules"
   ],
   "note": ""
  },
  {
   "property": "C34",
   "status": "proved",
   "theorems": [
    "C34_claims_within_funding",
    "C34_totals_are_history_sums"
   ],
   "note": ""
  },
  {
   "property": "C35",
   "status": "proved",
   "theorems": [
    "C35_claim_at_most_once",
    "C35_get_claim_is_true"
   ],
   "note": ""
  },
  {
   "property": "C36",
   "status": "proved",
   "theorems": [
    "C36_closed_is_final"
   ],
   "note": ""
  },
  {
   "property": "C37",
   "status": "proved",
   "theorems": [
    "C37_solvent",
    "C37_close_refunds_remainder",
    "C37_close_always_payable",
    "C37_claim_always_payable"
   ],
   "note": ""
  },
  {
   "property": "C38",
   "status": "proved",
   "theorems": [
    "C38_register_gets_next_id",
    "C38_only_register_takes_ids",
    "C38_ids_in_use",
    "C38_records_immutable"
   ],
   "note": ""
  },
  {
   "property": "C39",
   "status": "proved",
   "theorems": [
    "C39_labels_permanent",
    "C39_labels_unique",
    "C39_label_shows_creator"
   ],
   "note": ""
  },
  {
   "property": "C40",
   "status": "proved",
   "theorems": [
    "C40_fund_by_creator_with_one_coin",
    "C40_close_by_creator",
    "C40_fund_accepted_iff"
   ],
   "note": ""
  },
  {
   "property": "C41",
   "status": "proved",
   "theorems": [
    "C41_merkle_sound",
    "C41_merkle_sound_short"
   ],
   "note": ""
  },
  {
   "property": "C42",
   "status": "proved",
   "theorems": [
    "C42_every_leaf_has_a_proof"
   ],
   "note": ""
  },
  {
   "property": "C43",
   "status": "proved",
   "theorems": [
    "C43_leaf_strings_unambiguous",
    "C43_signed_strings_unambiguous"
   ],
   "note": ""
  },
  {
   "property": "C44",
   "status": "partial",
   "theorems": [
    "C44_refuted",
    "C44_replay",
    "C44_signature_binds_partial"
   ],
   "note": "Refuted: the signed string does not name the airdrop, so a claim can be replayed against every open airdrop with the same root and signer (general replay theorem). Proved: the airdrop's signer signed hash, claimer and amount."
  },
  {
   "property": "C45",
   "status": "partial",
   "theorems": [
    "C45_open_default_account_refuted",
    "C45_bearer_denied_refuted",
    "C45_bearer_confirmed_refuted",
    "C45_open_with_account_partial",
    "C45_bearer_checks_account",
    "C45_open_denied",
    "C45_bearer_denied",
    "C45_no_account"
   ],
   "note": "Refuted in three ways (no account: panic; bearer: the proof is checked against the account instead of the claim hash, wrong in both directions). Proved for open airdrops with the account given. All answers are characterised: valid (C45_open_with_account_partial, C45_bearer_checks_account), not valid (C45_open_denied, C45_bearer_denied), the rest fail."
  },
  {
   "property": "C46",
   "status": "proved",
   "theorems": [
    "C46_claim_pays_claimant"
   ],
   "note": ""
  },
  {
   "property": "C47",
   "status": "proved",
   "theorems": [
    "C47_finish_only_by_itself",
    "C47_no_user_finishes"
   ],
   "note": ""
  },
  {
   "property": "C48",
   "status": "partial",
   "theorems": [
    "C48_mint_exact_out",
    "C48_mint_exact_in_partial",
    "C48_mint_exact_in_monotone",
    "C48_mint_exact_in_refuted"
   ],
   "note": "MintExactAmountOut proved. For MintExactAmountIn refuted: limits are compared with the simulated cost of the finally chosen amount plus 10000, which may exceed the attached amount when prices are not monotone; proved under monotone prices."
  },
  {
   "property": "C49",
   "status": "proved",
   "theorems": [
    "C49_burn_exact_in",
    "C49_burn_exact_out"
   ],
   "note": ""
  },
  {
   "property": "C50",
   "status": "proved",
   "theorems": [
    "C50_input_limits",
    "C50_output_limits",
    "C50_output_limits_exist",
    "C50_input_limits_exist"
   ],
   "note": ""
  },
  {
   "property": "C51",
   "status": "proved",
   "theorems": [
    "C51_search_for_input",
    "C51_search_for_output",
    "C51_search_steps"
   ],
   "note": ""
  },
  {
   "property": "C52",
   "status": "proved",
   "theorems": [
    "C52_deduct_iff",
    "C52_expand_iff",
    "C52_deduct_then_expand",
    "C52_expand_then_deduct"
   ],
   "note": ""
  },
  {
   "property": "C53",
   "status": "proved",
   "theorems": [
    "C53_pool_ids"
   ],
   "note": ""
  },
  {
   "property": "C54",
   "status": "proved",
   "theorems": [
    "C54_parse_written",
    "C54_write_injective",
    "C54_parse_iff"
   ],
   "note": ""
  },
  {
   "property": "C55",
   "status": "partial",
   "theorems": [
    "C55_whole_power_low_partial",
    "C55_whole_power_high_partial",
    "C55_power_one",
    "C55_power_of_one",
    "C55_mixed_power_partial",
    "C55_mixed_power_refuted",
    "C55_whole_part_one_dropped"
   ],
   "note": "Whole exponents, exponent one and base one proved; mixed exponents proved except when the whole part is one, where the factor is dropped (refuted and characterised)."
  },
  {
   "property": "C56",
   "status": "proved",
   "theorems": [
    "C56_weighted_exact_in",
    "C56_weighted_exact_out"
   ],
   "note": ""
  },
  {
   "property": "C57",
   "status": "proved",
   "theorems": [
    "C57_rates_valid"
   ],
   "note": ""
  },
  {
   "property": "C58",
   "status": "partial",
   "theorems": [
    "C58_refuted",
    "C58_exhausted_never_closes"
   ],
   "note": "Refuted: the refund of zero coins is rejected by the bank, in every reachable world; topping up first is the only way out."
  },
  {
   "property": "C59",
   "status": "proved",
   "theorems": [
    "C59_airdrop_pages",
    "C59_claim_pages",
    "C59_label_listing"
   ],
   "note": ""
  },
  {
   "property": "C60",
   "status": "proved",
   "theorems": [
    "C60_periphery_is_core_history"
   ],
   "note": ""
  },
  {
   "property": "C61",
   "status": "proved",
   "theorems": [
    "C61_mint_exact_out_balances",
    "C61_mint_exact_out_user"
   ],
   "note": ""
  },
  {
   "property": "C62",
   "status": "partial",
   "theorems": [
    "C62_mint_exact_in_balances",
    "C62_mint_exact_in_user_partial",
    "C62_min_output_delivered_refuted"
   ],
   "note": "Refuted: min_output is compared before the mint fee is taken. Balances, charge and the pre-fee minimum proved."
  },
  {
   "property": "C63",
   "status": "partial",
   "theorems": [
    "C63_burn_exact_in_balances",
    "C63_burn_exact_in_user_partial",
    "C63_min_output_delivered_refuted"
   ],
   "note": "Refuted: per-route minimum amounts are rounded down, so the total may fall short. Exact balances and the bounded shortfall proved."
  },
  {
   "property": "C64",
   "status": "partial",
   "theorems": [
    "C64_burn_exact_out_balances",
    "C64_burn_exact_out_user_partial",
    "C64_desired_output_delivered_refuted"
   ],
   "note": "Refuted: the search stops up to 5000 below the desired amount and the per-route minimum is rounded down. Exact balances and bound proved."
  },
  {
   "property": "C65",
   "status": "partial",
   "theorems": [
    "C65_burn_in_quote",
    "C65_mint_out_quote_partial",
    "C65_mint_out_quote_with_fee",
    "C65_mint_out_quote_refuted",
    "C65_mint_in_quote_refuted",
    "C65_mint_in_quote_small_refuted",
    "C65_burn_out_quote_partial",
    "C65_mint_in_quote_partial",
    "C65_burn_out_quote_refuted"
   ],
   "note": "Burn-in query proved to agree; mint-out proved without mint fee and refuted with one (the query quotes the fee-deducted amount); mint-in and burn-out: proved without fee that the priced amount is worth the quoted swap amount, refuted with fees."
  },
  {
   "property": "C66",
   "status": "partial",
   "theorems": [
    "C66_real_rule_in",
    "C66_real_rule_in_safe_partial",
    "C66_real_rule_out",
    "C66_real_rule_out_partial",
    "C66_weighted_rule_in_partial",
    "C66_weighted_rule_out_partial",
    "C66_constant_product_in_partial",
    "C66_constant_product_out_partial",
    "C66_weighted_rule_in_refuted",
    "C66_weighted_rule_out_refuted"
   ],
   "note": "Refuted for weight ratios strictly between one and two (3:2), which are proved to be priced with the ratio less one; all other ratios follow the rule. Both directions proved against the real-valued rule with explicit error bounds for every ratio (standard library reals); integer bounds for equal weights and whole ratios."
  },
  {
   "property": "C67",
   "status": "partial",
   "theorems": [
    "C67_mint_keeps_nothing",
    "C67_burn_keeps_little_partial",
    "C67_burn_keeps_nothing_refuted"
   ],
   "note": "Proved for mints; refuted for burns, where rounding residue (bounded) stays in the contract."
  },
  {
   "property": "C68",
   "status": "partial",
   "theorems": [
    "C68_overpaid_partial",
    "C68_exact_payment_refuted"
   ],
   "note": "Refuted: the final transfer of a zero balance is rejected by the bank. Proved: every successful mint leaves a positive refund."
  },
  {
   "property": "C69",
   "status": "partial",
   "theorems": [
    "C69_self_swap_refuted",
    "C69_self_swap_partial"
   ],
   "note": "Refuted: the second update overwrites the first. Characterised."
  },
  {
   "property": "C70",
   "status": "proved",
   "theorems": [
    "C70_register_accepted_iff",
    "C70_hex_text"
   ],
   "note": ""
  },
  {
   "property": "C71",
   "status": "proved",
   "theorems": [
    "C71_airdrops_are_independent"
   ],
   "note": ""
  },
  {
   "property": "C72",
   "status": "partial",
   "theorems": [
    "C72_fraction_defined",
    "C72_precision_partial",
    "C72_fraction_low",
    "C72_fraction_high",
    "C72_mixed_low_partial",
    "C72_mixed_high_partial",
    "C72_precision_refuted"
   ],
   "note": "Termination and explicit error bounds proved for all bases and exponents whose whole part is not one; 10^-8 holds for bases in [0.51, 1.8] and is refuted for small bases (0.04^0.5). Uses the standard library's reals and their axioms."
  },
  {
   "property": "C73",
   "status": "proved",
   "theorems": [
    "C73_nominate_iff",
    "C73_accept_iff",
    "C73_revoke_iff",
    "C73_fee_update_iff",
    "C73_manager_iff",
    "C73_reserve_denom_iff",
    "C73_trade_info_iff"
   ],
   "note": ""
  },
  {
   "property": "C74",
   "status": "proved",
   "theorems": [
    "C74_init_iff"
   ],
   "note": ""
  },
  {
   "property": "C75",
   "status": "proved",
   "theorems": [
    "C75_deflate_iff",
    "C75_deflate_reserve_iff",
    "C75_inflate_iff",
    "C75_inflate_reserve_iff"
   ],
   "note": ""
  },
  {
   "property": "C76",
   "status": "proved",
   "theorems": [
    "C76_instantiate_iff"
   ],
   "note": ""
  },
  {
   "property": "C77",
   "status": "proved",
   "theorems": [
    "C77_yield",
    "C77_cost",
    "C77_sell_messages",
    "C77_buy_messages"
   ],
   "note": ""
  },
  {
   "property": "C78",
   "status": "proved",
   "theorems": [
    "C78_mint_exact_out",
    "C78_mint_exact_in",
    "C78_burn_exact_in",
    "C78_burn_exact_out",
    "C78_finish"
   ],
   "note": ""
  },
  {
   "property": "C79",
   "status": "proved",
   "theorems": [
    "C79_mint_exact_out",
    "C79_burn_exact_in",
    "C79_mint_exact_in",
    "C79_burn_exact_out"
   ],
   "note": ""
  },
  {
   "property": "C80",
   "status": "proved",
   "theorems": [
    "C80_exact_in_iff",
    "C80_exact_out_iff",
    "C80_exact_out_fits",
    "C80_equal_weights_in"
   ],
   "note": ""
  },
  {
   "property": "C81",
   "status": "proved",
   "theorems": [
    "C81_books_agree",
    "C81_one_receipt",
    "C81_mint_receipt",
    "C81_burn_receipt",
    "C81_deflate_receipt",
    "C81_inflate_receipt",
    "C81_fees_unreadable"
   ],
   "note": ""
  },
  {
   "property": "C82",
   "status": "proved",
   "theorems": [
    "C82_drop_books_agree",
    "C82_one_receipt",
    "C82_payment_receipt"
   ],
   "note": ""
  },
  {
   "property": "C83",
   "status": "proved",
   "theorems": [
    "C83_mint_in_receipt",
    "C83_mint_out_receipt",
    "C83_burn_in_receipt",
    "C83_burn_out_receipt",
    "C83_finish_receipt"
   ],
   "note": ""
  },
  {
   "property": "C84",
   "status": "proved",
   "theorems": [
    "C84_weighted",
    "C84_stable",
    "C84_concentrated",
    "C84_query_iff",
    "C84_base64"
   ],
   "note": ""
  },
  {
   "property": "C85",
   "status": "proved",
   "theorems": [
    "C85_bounds",
    "C85_extra_touch",
    "C85_frequency_matters"
   ],
   "note": ""
  },
  {
   "property": "C86",
   "status": "proved",
   "theorems": [
    "C86_core_text",
    "C86_drop_text",
    "C86_periphery_text",
    "C86_history_text",
    "C86_drop_history_text",
    "C86_digit_denom_ambiguous"
   ],
   "note": "Values are printed as Rust prints them; non-ASCII characters are taken as printable. C86_digit_denom_ambiguous shows why coin denoms must not begin with a digit (chain denoms never do)."
  },
  {
   "property": "C87",
   "status": "proved",
   "theorems": [
    "C87_no_quote_out",
    "C87_no_quote_in",
    "C87_below_reserve",
    "C87_curve_not_kept",
    "C87_overpriced",
    "C87_unknown_denom_quoted"
   ],
   "note": "Dead code in /repo (trait methods use the chain's estimate). The witnesses C87_curve_not_kept, C87_overpriced and C87_unknown_denom_quoted are the negative parts of the statement. Uint256::isqrt is taken as the whole part of the square root."
  },
  {
   "property": "C88",
   "status": "proved",
   "theorems": [
    "C88_asked_moment",
    "C88_config_iff",
    "C88_portfolio_iff",
    "C88_simulate_mint_iff",
    "C88_simulate_mint_default_iff",
    "C88_simulate_burn_iff",
    "C88_rebalance_shown"
   ],
   "note": ""
  },
  {
   "property": "C89",
   "status": "proved",
   "theorems": [
    "C89_get_label_iff",
    "C89_label_pages",
    "C89_listed_labels_read_back"
   ],
   "note": ""
  },
  {
   "property": "C90",
   "status": "proved",
   "theorems": [
    "C90_signer_is_the_keys_address",
    "C90_signer_identifies_key",
    "C90_signer_text",
    "C90_typo_noticed"
   ],
   "note": ""
  },
  {
   "property": "C91",
   "status": "proved",
   "theorems": [
    "C91_every_record_has_its_own_key",
    "C91_store_holds_the_state",
    "C91_same_outcomes",
    "C91_listing_of_airdrops",
    "C91_listings_by_label",
    "C91_listing_of_claims",
    "C91_single_records"
   ],
   "note": ""
  },
  {
   "property": "C92",
   "status": "proved",
   "theorems": [
    "C92_every_record_has_its_own_key",
    "C92_saves_change_one_record",
    "C92_routes_read_back"
   ],
   "note": ""
  },
  {
   "property": "C93",
   "status": "proved",
   "theorems": [
    "C93_version_texts",
    "C93_order_is_total",
    "C93_migrate_iff",
    "C93_build_metadata_counts",
    "C93_versions_rise",
    "C93_plain_triples"
   ],
   "note": ""
  },
  {
   "property": "C94",
   "status": "proved",
   "theorems": [
    "C94_texts_are_json",
    "C94_a_text_has_one_meaning",
    "C94_written_text_reads_back",
    "C94_amounts",
    "C94_decimals",
    "C94_written_numbers"
   ],
   "note": ""
  },
  {
   "property": "C95",
   "status": "proved",
   "theorems": [
    "C95_core_messages",
    "C95_airdrop_messages",
    "C95_periphery_messages",
    "C95_every_message_can_be_sent",
    "C95_only_what_fits",
    "C95_order_of_fields_is_free",
    "C95_by_id_is_not_understood"
   ],
   "note": ""
  },
  {
   "property": "C96",
   "status": "partial",
   "theorems": [
    "C96_core_client",
    "C96_core_questions",
    "C96_calls_to_itself",
    "C96_one_addressee",
    "C96_periphery_client_refuted",
    "C96_periphery_client_never_understood"
   ],
   "note": "Holds for the index contract's helper and for the periphery's own messages; refuted for the IbcPeriphery helper, whose calls are all refused (characterised exactly)."
  },
  {
   "property": "C97",
   "status": "proved",
   "theorems": [
    "C97_sale_iff",
    "C97_purchase_iff",
    "C97_yield_is_of_each_denom_alone",
    "C97_cost_is_of_each_denom_alone"
   ],
   "note": ""
  },
  {
   "property": "C98",
   "status": "proved",
   "theorems": [
    "C98_index_numbers_stay_in_range",
    "C98_index_sends_only_what_fits",
    "C98_airdrop_numbers_stay_in_range"
   ],
   "note": ""
  },
  {
   "property": "C99",
   "status": "proved",
   "theorems": [
    "C99_index_answers",
    "C99_index_refuses",
    "C99_index_client",
    "C99_airdrop_answers",
    "C99_airdrop_refuses",
    "C99_periphery_answers",
    "C99_periphery_refuses",
    "C99_view_through_texts",
    "C99_one_meaning"
   ],
   "note": ""
  },
  {
   "property": "C100",
   "status": "proved",
   "theorems": [
    "C100_index_call",
    "C100_periphery_call",
    "C100_airdrop_call",
    "C100_histories_of_texts",
    "C100_airdrop_histories",
    "C100_supply_from_text_to_text"
   ],
   "note": ""
  },
  {
   "property": "C101",
   "status": "proved",
   "theorems": [
    "C101_messages",
    "C101_creation",
    "C101_migration",
    "C101_stored_forms"
   ],
   "note": ""
  },
  {
   "property": "C102",
   "status": "proved",
   "theorems": [
    "C102_records_read_back",
    "C102_calls",
    "C102_answers",
    "C102_nothing_else"
   ],
   "note": ""
  },
  {
   "property": "C103",
   "status": "proved",
   "theorems": [
    "C103_calls",
    "C103_migration",
    "C103_answers",
    "C103_records_read_back",
    "C103_nothing_else",
    "C103_stored_forms",
    "C103_keys_survive"
   ],
   "note": ""
  },
  {
   "property": "C104",
   "status": "proved",
   "theorems": [
    "C104_two_sides",
    "C104_index_calls",
    "C104_periphery_calls",
    "C104_airdrop_calls",
    "C104_other_events",
    "C104_own_stores",
    "C104_own_coins",
    "C104_both_solvent"
   ],
   "note": ""
  },
  {
   "property": "C105",
   "status": "proved",
   "theorems": [
    "C105_index_calls",
    "C105_index_questions",
    "C105_airdrop_calls",
    "C105_airdrop_questions",
    "C105_periphery_calls",
    "C105_periphery_questions",
    "C105_deployments",
    "C105_everything_can_be_said"
   ],
   "note": ""
  },
  {
   "property": "C106",
   "status": "proved",
   "theorems": [
    "C106_index_answers",
    "C106_airdrop_answers",
    "C106_periphery_answers"
   ],
   "note": ""
  },
  {
   "property": "C107",
   "status": "partial",
   "theorems": [
    "C107_numbers",
    "C107_usual_numbers",
    "C107_mainnet_deploys",
    "C107_testnet_deploys",
    "C107_every_configuration_deploys_refuted"
   ],
   "note": "The scripts are characterised exactly; that every configuration with units a Decimal can hold is deployable is refuted (units below 10^-6 are written as 5e-7)."
  },
  {
   "property": "C108",
   "status": "partial",
   "theorems": [
    "C108_script_stops",
    "C108_index_left_open",
    "C108_script_finishes_refuted"
   ],
   "note": "How far the script can get is proved; that it finishes the rebalance it starts is refuted."
  },
  {
   "property": "C109",
   "status": "proved",
   "theorems": [
    "C109_mint_burn_script"
   ],
   "note": ""
  },
  {
   "property": "C110",
   "status": "partial",
   "theorems": [
    "C110_setup_deploys",
    "C110_every_setup_deploys_refuted"
   ],
   "note": "Refuted as stated for all configurations; proved for those where no created denom contains a later alias."
  },
  {
   "property": "C111",
   "status": "partial",
   "theorems": [
    "C111_routes_lead",
    "C111_unnamed_refused",
    "C111_every_deployment_trades_refuted"
   ],
   "note": "Proved for assets with aliases, refusal proved for the others; that the scripts trade on every deployed index is refuted."
  },
  {
   "property": "C112",
   "status": "proved",
   "theorems": [
    "C112_supply_is_held",
    "C112_holders_known",
    "C112_stays_backed",
    "C112_paid_until_then",
    "C112_everybody_leaves",
    "C112_dust_restores"
   ],
   "note": ""
  },
  {
   "property": "C113",
   "status": "partial",
   "theorems": [
    "C113_paid_if_funded",
    "C113_open_pays_every_leaf",
    "C113_honest_or_collision",
    "C113_every_leaf_is_paid_refuted"
   ],
   "note": "Proved for airdrops that hold the sum of their tree; that registering guarantees this is refuted."
  },
  {
   "property": "C114",
   "status": "proved",
   "theorems": [
    "C114_reader_iff",
    "C114_one_command",
    "C114_one_question",
    "C114_message_heard",
    "C114_create_heard",
    "C114_calls_heard",
    "C114_asked_in",
    "C114_asked_out",
    "C114_asked_pool",
    "C114_created_iff",
    "C114_canonical_answer",
    "C114_other_replies"
   ],
   "note": ""
  },
  {
   "property": "C115",
   "status": "partial",
   "theorems": [
    "C115_answer_iff",
    "C115_weighted",
    "C115_concentrated",
    "C115_pools_by_id",
    "C115_own_map",
    "C115_own_map_exists",
    "C115_stable_unread",
    "C115_stable_refuted",
    "C115_stable_calls",
    "C115_stable_quotes"
   ],
   "note": "Reading is characterised exactly and proved right for weighted and concentrated pools; that stable pools are read as the chain writes them is refuted."
  },
  {
   "property": "C116",
   "status": "proved",
   "theorems": [
    "C116_uses_answers",
    "C116_estimates",
    "C116_index_calls",
    "C116_pools",
    "C116_periphery_calls",
    "C116_periphery_quotes"
   ],
   "note": ""
  },
  {
   "property": "C117",
   "status": "proved",
   "theorems": [
    "C117_one_outcome",
    "C117_refines",
    "C117_laws",
    "C117_supply"
   ],
   "note": "Bank, token factory and pool manager as in World.v, but driven by what is read from the messages' bytes; sizes within the types, denoms that become keys below 65535 bytes, routes below 2^32 letters."
  },
  {
   "property": "C118",
   "status": "proved",
   "theorems": [
    "C118_one_outcome",
    "C118_always",
    "C118_events",
    "C118_all_events",
    "C118_course",
    "C118_laws",
    "C118_solvent"
   ],
   "note": "Events follow JointModel.v in both directions; airdrop calls, transfers and migrations send nothing to a module and are as in C104. Messages of 2^64 bytes or more go nowhere."
  },
  {
   "property": "C119",
   "status": "proved",
   "theorems": [
    "C119_holding",
    "C119_no_fee"
   ],
   "note": "Histories without rebalancing trades, block times in order; trades are bounded by C18-C20, C24."
  },
  {
   "property": "C120",
   "status": "proved",
   "theorems": [
    "C120_trade",
    "C120_during",
    "C120_rebalance",
    "C120_fair"
   ],
   "note": "The worth of the units the contract keeps; how far its balances follow them is C05 (see C25 and C26 for routes that trade another denom)."
  },
  {
   "property": "C121",
   "status": "proved",
   "theorems": [
    "C121_portfolio",
    "C121_burn"
   ],
   "note": "Block times in order. That a burn is accepted at all (balances cover the units) is C06, C05 and C112."
  },
  {
   "property": "C122",
   "status": "proved",
   "theorems": [
    "C122_rules",
    "C122_fixed_basket"
   ],
   "note": "Composition of the authorisation of every message (C16) with C119 over whole histories, rejected attempts included."
  },
  {
   "property": "C123",
   "status": "proved",
   "theorems": [
    "C123_rate_limit",
    "C123_unregistered"
   ],
   "note": "Sums the cooldown (C27) and the limit of single trades over histories."
  },
  {
   "property": "C124",
   "status": "proved",
   "theorems": [
    "C124_stake",
    "C124_coins"
   ],
   "note": "Answers what C07 leaves open (splitting mints gains, C07_split_mints_no_profit_refuted): exactly how much can be gained at most. Assumes that the basket does not contain the index token itself."
  },
  {
   "property": "C125",
   "status": "proved",
   "theorems": [
    "C125_real_hashes_qualify",
    "C125_collision_breaks_compression",
    "C125_membership",
    "C125_signer_identifies_key",
    "C125_signature_covers_one_claim"
   ],
   "note": "Instantiates the hash functions that C41, C42, C90 and C113 leave open and reduces their collisions to the compression function (Merkle-Damgard). The model of the digests agrees with the published test vectors and with all tests of contracts/airdrop (RepoAirdrop.v)."
  },
  {
   "property": "C126",
   "status": "proved",
   "theorems": [
    "C126_coins",
    "C126_rules"
   ],
   "note": "C122 and C124 carried to the bytes by the refinement of C117. Assumes that the basket does not contain the index token itself."
  },
  {
   "property": "C127",
   "status": "proved",
   "theorems": [
    "C127_everybody_leaves"
   ],
   "note": "C112 carried to the bytes by the refinement of C117. Assumes that the basket does not contain the index token itself, that the contract's balances are below 2^128, and that each leaver's share of some denom is at least one coin."
  },
  {
   "property": "C128",
   "status": "proved",
   "theorems": [
    "C128_rate_limit",
    "C128_unregistered",
    "C128_every_history"
   ],
   "note": "C123 carried to the bytes by the refinement of C117. Denoms that become the first half of a key are below 65535 bytes."
  },
  {
   "property": "C129",
   "status": "proved",
   "theorems": [
    "C129_waiting"
   ],
   "note": "C122_fixed_basket carried to the bytes by the refinement of C117. Block times do not go back."
  },
  {
   "property": "C130",
   "status": "proved",
   "theorems": [
    "C130_open_airdrop",
    "C130_any_airdrop"
   ],
   "note": "C113 with its assumption on forged proofs discharged by C125. Entries and claims whose text has exactly 64 characters (which could be taken for two digests) are excluded."
  },
  {
   "property": "C131",
   "status": "proved",
   "theorems": [
    "C131_permitted",
    "C131_governance",
    "C131_nominee"
   ],
   "note": "C15 and C16 lifted to texts and stored bytes. Texts whose numbers and keys are within the sizes of SizeSpec.v."
  },
  {
   "property": "C132",
   "status": "proved",
   "theorems": [
    "C132_open_airdrop",
    "C132_any_airdrop"
   ],
   "note": "C130 lifted to texts and stored bytes on the chain of C104. Entries and claims whose text has exactly 64 characters are excluded, as in C130."
  },
  {
   "property": "C133",
   "status": "proved",
   "theorems": [
    "C133_permitted",
    "C133_claim_pays",
    "C133_close_refunds",
    "C133_store_keeps",
    "C133_claims_were_sent"
   ],
   "note": "C35, C36, C38, C39, C40 and C46 lifted to texts and stored bytes on the chain of C104. The effects of claims and closings are stated for calls without attached coins."
  }
 ]
}