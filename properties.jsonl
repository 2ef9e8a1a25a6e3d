{"id": "C01", "title": "Supply query equals tokens minted minus tokens burned", "statement": "At every point of every history, the index-token supply reported by GetTotalSupply equals the chain-side supply of the index denom, i.e. everything the contract ever asked the token factory to mint minus everything it asked it to burn.", "quantifier": "every sequence of transactions (any senders, funds, messages, times, successful or failing) after instantiation", "why_tests_cant": "A drift of one unit can need an arbitrary interleaving of mints, burns, fee changes, failed calls and rebalances; tests see a handful of fixed sequences.", "anchors": ["contracts/core/src/execute/token.rs: mint, burn", "contracts/core/src/query.rs: get_total_supply", "contracts/core/src/contract.rs: instantiate, execute"]}
{"id": "C02", "title": "A mint takes exactly the basket price and refunds the rest", "statement": "A successful Mint of amount a keeps, from the attached funds, exactly max(1, floor(unit*a)) of every basket denom (units after streaming-fee accrual) and sends every remaining coin to refund_to (default sender); it fails if any basket denom is missing or short, or if any attached denom is not in the basket.", "quantifier": "every state, amount, attached fund list and optional refund address", "why_tests_cant": "Needs all unit values, all amounts (18-decimal flooring) and all fund lists, including extra, missing and zero-priced denoms.", "anchors": ["contracts/core/src/state/units.rs: calc_require_amount, calc_refund_amount", "contracts/core/src/execute/token.rs: mint"]}
{"id": "C03", "title": "A mint creates exactly the requested tokens and splits them into fee and receipt", "statement": "A successful Mint of amount a creates exactly a index tokens; the fee collector gets max(1, floor(rate*a)) if a mint fee is set and nothing otherwise, and the receiver gets all the rest; nobody else receives index tokens.", "quantifier": "every state, amount, fee rate and receiver", "why_tests_cant": "Rounding of every (rate, amount) pair cannot be enumerated.", "anchors": ["contracts/core/src/execute/token.rs: mint"]}
{"id": "C04", "title": "A burn destroys what it is paid for and pays the floor of the basket share", "statement": "A successful Burn with n index tokens attached destroys n - floor(rate*n) tokens, sends floor(rate*n) tokens to the collector if a burn fee is set, and sends redeem_to exactly floor(unit*(n-floor(rate*n))) of every basket denom, listed in sorted denom order; it fails unless exactly one non-zero coin of the index denom is attached.", "quantifier": "every state, attached funds and fee rate", "why_tests_cant": "Rounding of every (unit, rate, amount) triple and every malformed fund list.", "anchors": ["contracts/core/src/execute/token.rs: burn", "contracts/core/src/state/units.rs: calc_require_amount"]}
{"id": "C05", "title": "Collateral shortfall is bounded by rounding dust", "statement": "For every asset, the contract's balance always covers what all index tokens could redeem at the current units, plus realised-but-unpaid streaming fees, plus the rebalance reserve claims, up to a shortfall of less than one base unit per successful mint plus supply/10^18 base units per swap trade plus exactly the amounts moved by swaps whose route does not lead to the traded denom. In histories without swap trades the shortfall is less than one base unit per mint.", "quantifier": "every asset other than the index token itself and every sequence of transactions, including swap fills chosen by an adversarial chain within the message limits", "why_tests_cant": "The bound is about accumulation over unboundedly many operations; tests run a few.", "anchors": ["contracts/core/src/execute/token.rs", "contracts/core/src/state/fee.rs: StreamingFee::collect", "contracts/core/src/execute/rebalance/trade/deflate.rs", "contracts/core/src/execute/rebalance/trade/inflate.rs"]}
{"id": "C06", "title": "Full collateralisation: holders can always redeem", "statement": "The contract is 'fully-collateralized' (README): whenever it is neither paused nor rebalancing, every outstanding index token can be burned for its basket share and the transfer succeeds.", "quantifier": "every reachable state", "why_tests_cant": "Falsified only by particular roundings accumulated over several mints.", "anchors": ["README.md", "contracts/core/src/execute/token.rs: mint, burn", "contracts/core/src/state/units.rs: calc_refund_amount"]}
{"id": "C07", "title": "Mint then burn never makes a profit", "statement": "Immediately burning what one mint produced returns, in every basket denom, at most what that mint charged; the same holds for any way of splitting the burn into several burns. A sequence of mints followed by one combined burn never returns more than was paid in total.", "quantifier": "every unit vector, amount, fee setting, and every split of the tokens", "why_tests_cant": "Rounding exploits hide in specific (unit, amount, split) combinations.", "anchors": ["contracts/core/src/execute/token.rs: mint, burn"]}
{"id": "C08", "title": "Streaming fee accrual conserves units", "statement": "Whenever the streaming fee is applied, each basket unit is split exactly: new unit + fee unit = old unit, fee unit = floor(unit*((1+rate)^dt - 1)), and the collector's claim in that denom grows by exactly floor(fee unit * supply); no unit ever grows through accrual and basket membership and order do not change.", "quantifier": "every unit vector, supply, rate, elapsed time, previous claims", "why_tests_cant": "Requires all rates, durations and basket sizes.", "anchors": ["contracts/core/src/state/fee.rs: StreamingFee::collect", "contracts/core/src/execute/fee.rs: collect_streaming_fee"]}
{"id": "C09", "title": "Streaming fee accrues at most once per second of elapsed time and never while frozen", "statement": "Accrual is idempotent within a block time (a second application at the same time changes nothing), nothing accrues while the fee is frozen, and the time spent in a rebalance is never charged: accrual restarts from the finalize time.", "quantifier": "every history of accruals, rebalances and queries", "why_tests_cant": "Needs arbitrary interleavings of accruing messages with rebalance start and end.", "anchors": ["contracts/core/src/state/fee.rs: StreamingFee::collect", "contracts/core/src/execute/rebalance/init.rs: freeze_streaming_fee", "contracts/core/src/execute/rebalance/finalize.rs: unfreeze_streaming_fee"]}
{"id": "C10", "title": "Only the collector can realise streaming fees, and gets exactly the accrued claims", "statement": "Realize succeeds only for the fee collector; it pays the collector exactly the accrued claims after accrual to the current time and resets them to nothing; no other message pays those claims out.", "quantifier": "every state, sender and time", "why_tests_cant": "Universally quantified over senders, claims and histories.", "anchors": ["contracts/core/src/execute/fee.rs: realize_streaming_fee"]}
{"id": "C11", "title": "Accrued streaming fees are never forfeited", "statement": "A claim accrued to the fee collector stays payable until it is realised, whatever governance does.", "quantifier": "every history", "why_tests_cant": "Falsified only by interleaving accrual with a governance fee update.", "anchors": ["contracts/core/src/execute/gov/update.rs: update_fee"]}
{"id": "C12", "title": "Governance's freeze of the streaming fee survives a rebalance", "statement": "If governance configured the streaming fee as frozen, it is still frozen after a rebalance completes.", "quantifier": "every history", "why_tests_cant": "Needs a full rebalance cycle in combination with the freeze flag.", "anchors": ["contracts/core/src/execute/rebalance/finalize.rs: unfreeze_streaming_fee"]}
{"id": "C13", "title": "The contract cannot be bricked by idle time", "statement": "With any fee configuration accepted by validation, mint, burn, realize, rebalance-init and fee updates stay possible no matter how long the contract was idle.", "quantifier": "every accepted fee rate and every idle duration", "why_tests_cant": "The failure needs more than a year of block time at the maximum accepted rate.", "anchors": ["contracts/core/src/state/fee.rs: StreamingFee::collect, MAX_STREAMING_FEE_RATE", "contracts/core/src/contract.rs: execute"]}
{"id": "C14", "title": "Pause blocks exactly mint and burn, until expiry", "statement": "While paused (and before its expiry time) every Mint and Burn fails; from the expiry second on they behave as if never paused; pausing affects no other message; only governance can pause (with an expiry strictly in the future, and not while already effectively paused) or release.", "quantifier": "every state, time, sender and message", "why_tests_cant": "Boundary times and all message kinds.", "anchors": ["contracts/core/src/state/pause.rs", "contracts/core/src/execute/gov/pause.rs", "contracts/core/src/execute/token.rs"]}
{"id": "C15", "title": "Governance handover is two-step", "statement": "The governance address changes only when the nominated address itself accepts, after having been nominated by the then-current governance with no intervening revocation; there is never more than one nominee.", "quantifier": "every sequence of messages by any senders", "why_tests_cant": "Quantifies over all histories and adversarial senders.", "anchors": ["contracts/core/src/execute/gov/update.rs: update_gov, accept_gov, revoke_gov"]}
{"id": "C16", "title": "Privileged messages are authorised", "statement": "Pause, release, nominate, revoke, fee update, manager update, reserve-denom update, trade-info update and rebalance init succeed only for the governance address; accept only for the nominee; realize only for the collector; trade and finalize only for the rebalance manager when one is set.", "quantifier": "every state, sender and message", "why_tests_cant": "All senders and states.", "anchors": ["contracts/core/src/lib.rs: assert_sender", "contracts/core/src/execute/gov/update.rs", "contracts/core/src/execute/gov/pause.rs", "contracts/core/src/execute/rebalance/init.rs", "contracts/core/src/execute/rebalance/finalize.rs", "contracts/core/src/execute/rebalance/trade/mod.rs"]}
{"id": "C17", "title": "Nothing changes the basket, supply or configuration behind a rebalance", "statement": "During a rebalance mint, burn, rebalance init, fee updates and reserve-denom updates all fail, the supply is constant and the streaming fee takes nothing from the units; trade and finalize fail outside a rebalance.", "quantifier": "every history and message while a rebalance is open", "why_tests_cant": "All interleavings of messages during a rebalance.", "anchors": ["contracts/core/src/execute/token.rs", "contracts/core/src/execute/gov/update.rs", "contracts/core/src/execute/rebalance/init.rs", "contracts/core/src/execute/rebalance/trade/mod.rs", "contracts/core/src/execute/rebalance/finalize.rs"]}
{"id": "C18", "title": "A deflate trade respects every limit the caller and governance set", "statement": "A successful swap deflate happens only for a deflation denom, after the cooldown, buys at most the configured maximum trade amount, spends at most the caller's max_amount_in and at most the floor of (current unit - target unit)*supply, and emits exactly one exact-out swap message for amount_out of the reserve denom whose input limit is the simulated input.", "quantifier": "every state, oracle answer and trade request", "why_tests_cant": "All oracle answers and unit/supply combinations.", "anchors": ["contracts/core/src/execute/rebalance/trade/deflate.rs: deflate", "contracts/core/src/state/rebalance.rs: TradeInfo"]}
{"id": "C19", "title": "An inflate trade respects every limit the caller and governance set", "statement": "A successful swap inflate happens after the cooldown, spends at most the configured maximum trade amount and at most floor(reserve unit*supply) of the reserve denom, credits at least min_amount_out worth of units (floored per token), and emits exactly one exact-in swap message of amount_in reserve coins whose output minimum is the simulated output.", "quantifier": "every state, oracle answer and trade request", "why_tests_cant": "All oracle answers and unit/supply combinations.", "anchors": ["contracts/core/src/execute/rebalance/trade/inflate.rs: inflate", "contracts/core/src/state/rebalance.rs: TradeInfo"]}
{"id": "C20", "title": "Deflation never undershoots its target and touches nothing else", "statement": "During a rebalance the unit of every deflation denom never increases and never drops below its target, units of denoms that are neither deflated nor inflated never change, and inflation denoms never decrease.", "quantifier": "every sequence of messages between init and finalize", "why_tests_cant": "Rounding in each trade accumulates over unboundedly many trades.", "anchors": ["contracts/core/src/execute/rebalance/trade/deflate.rs", "contracts/core/src/execute/rebalance/trade/inflate.rs", "contracts/core/src/state/rebalance.rs: Rebalance::validate"]}
{"id": "C21", "title": "Finalize completes a rebalance exactly", "statement": "Finalize succeeds exactly when every deflation denom is at its target and all reserve units are zero (and the caller is allowed); afterwards no rebalance is open, every deflation denom with non-zero target has exactly its target unit, no zero unit remains, and all other units are unchanged.", "quantifier": "every reachable rebalancing state and caller", "why_tests_cant": "All reachable states.", "anchors": ["contracts/core/src/execute/rebalance/finalize.rs: finalize"]}
{"id": "C22", "title": "A started rebalance can always be finished", "statement": "From every state reachable during a rebalance, some sequence of messages leads to a successful finalize (so mint and burn become available again).", "quantifier": "every reachable rebalancing state", "why_tests_cant": "Liveness over all continuations.", "anchors": ["contracts/core/src/execute/rebalance/finalize.rs", "contracts/core/src/execute/rebalance/trade/deflate.rs", "contracts/core/src/execute/rebalance/trade/inflate.rs"]}
{"id": "C23", "title": "Accepted inflation weights can always be traded against", "statement": "For every rebalance accepted by init, a deflate that obtains reserve can distribute it over the inflation weights without a runtime failure.", "quantifier": "every accepted inflation vector", "why_tests_cant": "Weight zero at the tail is accepted by validation and fails only at trade time.", "anchors": ["contracts/core/src/state/rebalance.rs: Rebalance::validate", "contracts/core/src/execute/rebalance/trade/deflate.rs: inflate_reserve_unit"]}
{"id": "C24", "title": "Reserve obtained by deflation is distributed by weight without over-allocation", "statement": "Distributing an obtained reserve unit over the inflation weights never allocates more than was obtained, only credits inflation denoms, allocates everything when the last weight is the whole remaining weight up to the documented floor, and gives each denom at most its weighted share of what is left, rounded down.", "quantifier": "every reserve unit and weight vector", "why_tests_cant": "All weight vectors and values.", "anchors": ["contracts/core/src/execute/rebalance/trade/deflate.rs: inflate_reserve_unit"]}
{"id": "C25", "title": "A deflate trade sells the denom being deflated", "statement": "The swap message emitted by a deflate spends the target denom to obtain the reserve denom.", "quantifier": "every history in which trade info is registered and a deflate succeeds", "why_tests_cant": "The stored route is keyed by its own first denom, so the contradiction only shows when registration and trading are composed.", "anchors": ["packages/interface/src/types.rs: SwapRoutes::denom_last, msg_swap_exact_out", "contracts/core/src/execute/gov/update.rs: update_trade_info", "contracts/core/src/execute/rebalance/trade/deflate.rs: deflate"]}
{"id": "C26", "title": "An inflate trade buys the denom being inflated", "statement": "The swap message emitted by an inflate delivers the target denom.", "quantifier": "every history in which trade info is registered and an inflate succeeds", "why_tests_cant": "Holds for single-hop routes and fails for multi-hop ones.", "anchors": ["packages/interface/src/types.rs: SwapRoutes::denom_last, msg_swap_exact_in", "contracts/core/src/execute/gov/update.rs: update_trade_info", "contracts/core/src/execute/rebalance/trade/inflate.rs: inflate"]}
{"id": "C27", "title": "Trade cooldown is respected", "statement": "Between two successful swap trades on the same denom pair at least the configured cooldown elapses, unless governance re-registered the pair in between.", "quantifier": "every history", "why_tests_cant": "Needs arbitrary interleavings of trades on several pairs and governance updates.", "anchors": ["contracts/core/src/state/rebalance.rs: assert_cooldown, update_last_traded_at", "contracts/core/src/execute/rebalance/trade/deflate.rs", "contracts/core/src/execute/rebalance/trade/inflate.rs"]}
{"id": "C28", "title": "Basket denoms stay unique", "statement": "The basket never contains two entries for one denom, and neither do the reserve units or the fee claims.", "quantifier": "every history from instantiation", "why_tests_cant": "An invariant over unboundedly many trades, accruals and finalizations.", "anchors": ["contracts/core/src/state/units.rs: add_key, check_duplicate", "contracts/core/src/contract.rs: instantiate", "contracts/core/src/state/fee.rs: collect"]}
{"id": "C29", "title": "Burn simulation agrees with burning", "statement": "SimulateBurn at the current time returns exactly the burned amount and the redeemed coins (up to listing order) of a Burn executed in that state, and fails exactly when the accrual or arithmetic of that Burn fails.", "quantifier": "every state, amount and time", "why_tests_cant": "All states and amounts.", "anchors": ["contracts/core/src/query.rs: simulate_burn", "contracts/core/src/execute/token.rs: burn"]}
{"id": "C30", "title": "Mint simulation agrees with minting", "statement": "SimulateMint at the current time with the caller's funds returns exactly the received index tokens, refund and spent coins of a Mint executed in that state.", "quantifier": "every state, amount, funds and time", "why_tests_cant": "The disagreement needs amounts so small that a fee or price rounds to zero.", "anchors": ["contracts/core/src/query.rs: simulate_mint", "contracts/core/src/execute/token.rs: mint"]}
{"id": "C31", "title": "Portfolio and fee queries show the state the next operation will see", "statement": "GetPortfolio/GetFee at time t return exactly the units, assets and claims that an accrual at time t would store, without modifying anything; querying at a later time never shows larger units.", "quantifier": "every state and query time", "why_tests_cant": "All times and states.", "anchors": ["contracts/core/src/query.rs: get_portfolio, get_fee", "contracts/core/src/execute/fee.rs: collect_streaming_fee"]}
{"id": "C32", "title": "Migration only moves to strictly newer versions of the same contract", "statement": "Without the force flag, a migration succeeds exactly when the stored contract name matches and the stored semantic version is strictly smaller than the new one; with force it always succeeds; in any sequence of unforced migrations versions strictly increase.", "quantifier": "every stored name/version and every sequence of migrations", "why_tests_cant": "All version triples.", "anchors": ["packages/utils/src/lib.rs: store_version", "contracts/core/src/contract.rs: migrate", "contracts/airdrop/src/contract.rs: migrate", "contracts/periphery/src/contract.rs: migrate"]}
{"id": "C33", "title": "Pagination enumerates every entry exactly once, in order", "statement": "Following start_after from page to page, in either order and with any accepted limit >= 1, concatenates to exactly the full listing; limits above 30 are rejected and the default is 10.", "quantifier": "every stored map, order and limit", "why_tests_cant": "All map contents and page sizes.", "anchors": ["packages/interface/src/lib.rs: get_and_check_limit, range_option", "contracts/core/src/query.rs: list_trade_info", "contracts/airdrop/src/query/airdrop.rs", "contracts/airdrop/src/query/claim.rs", "contracts/airdrop/src/query/label.rs"]}
{"id": "C34", "title": "Claims of an airdrop never exceed its funding", "statement": "For every airdrop, total claimed <= total funded at all times, total claimed equals the sum of the logged claims, and total funded equals the registration payment plus all top-ups.", "quantifier": "every history of airdrop messages", "why_tests_cant": "Invariant over unboundedly many claims and airdrops.", "anchors": ["contracts/airdrop/src/execute/claim.rs", "contracts/airdrop/src/execute/fund.rs", "contracts/airdrop/src/execute/register.rs"]}
{"id": "C35", "title": "Each claim key is paid at most once per airdrop", "statement": "In every history, for each airdrop and claim key (account for open, claim hash for bearer airdrops) at most one claim succeeds, and GetClaim reports it forever after.", "quantifier": "every history, including replayed and adversarial claims", "why_tests_cant": "Replay attacks over arbitrary histories.", "anchors": ["contracts/airdrop/src/state.rs: assert_not_claimed", "contracts/airdrop/src/execute/claim.rs"]}
{"id": "C36", "title": "A closed airdrop is final", "statement": "After a successful close, no fund, claim or close of that airdrop ever succeeds and its record never changes.", "quantifier": "every continuation of every history", "why_tests_cant": "All continuations.", "anchors": ["contracts/airdrop/src/execute/close.rs", "contracts/airdrop/src/execute/fund.rs", "contracts/airdrop/src/execute/claim.rs"]}
{"id": "C37", "title": "The airdrop contract is always solvent", "statement": "For every denom the contract's balance is at least the sum over open airdrops of (funded - claimed), so every claim of a positive amount and every close with something left that passes validation can be paid; closing returns exactly the unclaimed remainder to the creator, so claims + refund = funding.", "quantifier": "every history over any number of concurrent airdrops sharing a denom", "why_tests_cant": "Cross-airdrop interference needs arbitrary interleavings.", "anchors": ["contracts/airdrop/src/execute/register.rs", "contracts/airdrop/src/execute/fund.rs", "contracts/airdrop/src/execute/claim.rs", "contracts/airdrop/src/execute/close.rs"]}
{"id": "C38", "title": "Airdrop ids are sequential and records immutable except for funding, claims and closing", "statement": "The n-th registered airdrop gets id n (from 0); an id is never reused; creator, denom, merkle root, signer, label and creation height never change.", "quantifier": "every history", "why_tests_cant": "All histories.", "anchors": ["contracts/airdrop/src/execute/register.rs", "contracts/airdrop/src/state.rs: LATEST_AIRDROP_ID"]}
{"id": "C39", "title": "Labels are unique, permanent and namespaced by creator", "statement": "A label resolves to the same airdrop forever; it starts with its creator's address and a slash; so nobody can take or squat another creator's labels; looking up by label or id gives the same airdrop.", "quantifier": "every history and sender", "why_tests_cant": "Adversarial registrations.", "anchors": ["contracts/airdrop/src/state.rs: save_label, load_airdrop", "contracts/airdrop/src/execute/register.rs"]}
{"id": "C40", "title": "Only the creator can fund or close an airdrop", "statement": "Fund and Close succeed only for the airdrop's creator; Register and Fund require exactly one non-zero coin of the airdrop denom.", "quantifier": "every state, sender and funds", "why_tests_cant": "All senders and states.", "anchors": ["contracts/airdrop/src/execute/fund.rs", "contracts/airdrop/src/execute/close.rs"]}
{"id": "C41", "title": "Merkle proofs are sound", "statement": "If a claim verifies against the root of a tree built over a list of (key, amount) leaves, then the claimed (key, amount) is one of the leaves - unless an explicit sha256 collision or a leaf string that is itself a concatenation of two node hashes is exhibited.", "quantifier": "every tree, proof and claim", "why_tests_cant": "All proofs of all lengths.", "anchors": ["contracts/airdrop/src/verify.rs: verify_merkle_proof"]}
{"id": "C42", "title": "Every leaf of the tree has a working proof", "statement": "For every tree and every leaf, the path of sibling hashes is accepted for that leaf's key and amount.", "quantifier": "every tree and leaf", "why_tests_cant": "All trees.", "anchors": ["contracts/airdrop/src/verify.rs: verify_merkle_proof"]}
{"id": "C43", "title": "Claim strings are unambiguous", "statement": "Two different (key, amount) claims never share the leaf string, and two different bearer authorisations (claim hash, claimer, amount) never share the signed string when the claimer addresses contain no slash.", "quantifier": "all keys and amounts", "why_tests_cant": "Injectivity over all strings.", "anchors": ["contracts/airdrop/src/verify.rs: verify_merkle_proof", "contracts/airdrop/src/execute/claim.rs: claim_bearer"]}
{"id": "C44", "title": "A bearer claim is authorised for one airdrop only", "statement": "A signature authorising a bearer claim in one airdrop cannot be used in another airdrop.", "quantifier": "every pair of airdrops", "why_tests_cant": "Cross-airdrop replay.", "anchors": ["contracts/airdrop/src/execute/claim.rs: claim_bearer"]}
{"id": "C45", "title": "VerifyClaim predicts Claim", "statement": "VerifyClaim answers valid exactly for payloads whose Claim would pass the merkle/signature checks.", "quantifier": "every state and payload", "why_tests_cant": "The disagreement is on the bearer path and on omitted accounts.", "anchors": ["contracts/airdrop/src/query/claim.rs: verify_claim", "contracts/airdrop/src/execute/claim.rs"]}
{"id": "C46", "title": "A claim pays the named account, not the messenger", "statement": "A successful claim pays exactly the claimed amount of the airdrop denom to the claimer (the given account, default sender) and to nobody else; for open airdrops the claimer is the proven key, so third parties can only claim on someone's behalf.", "quantifier": "every state, sender and payload", "why_tests_cant": "All senders.", "anchors": ["contracts/airdrop/src/execute/claim.rs"]}
{"id": "C47", "title": "FinishOperation is internal", "statement": "FinishOperation fails for every caller other than the periphery contract itself.", "quantifier": "every sender", "why_tests_cant": "All senders.", "anchors": ["contracts/periphery/src/execute.rs: finish_operation"]}
{"id": "C48", "title": "Periphery never spends more than the user supplied, nor mints or burns anything else", "statement": "MintExactAmountOut / MintExactAmountIn: the swap messages' input limits never exceed the attached amount plus the fixed margin, the mint message is for the promised index amount with the sender as receiver and refundee, and the last message refunds the remaining input to the sender.", "quantifier": "every portfolio, pool answer and request", "why_tests_cant": "All oracle answers.", "anchors": ["contracts/periphery/src/execute.rs: mint_exact_amount_in, mint_exact_amount_out", "packages/pool/src/sim/route.rs: to_msgs"]}
{"id": "C49", "title": "Periphery burns at most what was attached and enforces the minimum output", "statement": "BurnExactAmountIn burns exactly the attached tokens, only proceeds if the simulated output reaches min_output_amount, and its per-route minimum outputs sum to at most min_output_amount, each missing less than one unit plus scaling error; BurnExactAmountOut never burns more than attached and refunds unburned tokens.", "quantifier": "every portfolio, pool answer and request", "why_tests_cant": "All oracle answers.", "anchors": ["contracts/periphery/src/execute.rs: burn_exact_amount_in, burn_exact_amount_out", "packages/pool/src/sim/route.rs"]}
{"id": "C50", "title": "Swap limits are scaled proportionally and never exceed the total", "statement": "For exact-out routes the per-route input limits are each at least the simulated input and sum to at most the user's max input; for exact-in routes the per-route minimum outputs are each at most the simulated output and sum to at most the requested minimum.", "quantifier": "every list of simulated routes and limits", "why_tests_cant": "All lists and values with 18-decimal rounding.", "anchors": ["packages/pool/src/sim/route.rs: SimAmountOutRoutes::to_msgs, SimAmountInRoutes::to_msgs"]}
{"id": "C51", "title": "Search results are within tolerance and terminate", "statement": "The index-amount search performs at most 256 refinement steps; when it succeeds, the simulated input (output) is at most the desired amount and less than 5000 units below it, and the reported amounts are those of one simulation run.", "quantifier": "every pool behaviour (arbitrary oracle)", "why_tests_cant": "All pool behaviours.", "anchors": ["packages/pool/src/sim/index_out.rs: search_efficient_amount_for_input", "packages/pool/src/sim/index_in.rs: search_efficient_amount_for_output", "packages/pool/src/sim/mod.rs"]}
{"id": "C52", "title": "Fee expansion and deduction are inverse up to rounding", "statement": "For every fee rate below one, deducting the fee and then expanding never increases an amount by rounding beyond one unit plus the decimal error, and expand_fee fails exactly for rates of one or more.", "quantifier": "every rate and amount", "why_tests_cant": "All 18-decimal rates.", "anchors": ["contracts/periphery/src/lib.rs: deduct_fee, expand_fee"]}
{"id": "C53", "title": "Pool ids are extracted completely, without duplicates, ascending", "statement": "extract_pool_ids returns exactly the pool ids used by the routes, each once, ascending.", "quantifier": "every swap info", "why_tests_cant": "All inputs.", "anchors": ["packages/interface/src/periphery.rs: extract_pool_ids"]}
{"id": "C54", "title": "Compact swap info parses back what was written", "statement": "Parsing 'in,out' and 'pool,denom' strings returns the intended route key and routes whenever denoms contain no comma. In general a list of compact routes is read exactly when every hop's first comma-separated field is a number below 2^64 in decimal, with an optional plus sign and leading zeros; the first and last fields of a key are its denoms and the last field of a hop is its denom. Anything else aborts the call.", "quantifier": "every list of keys and hops, as arbitrary strings", "why_tests_cant": "All strings.", "anchors": ["packages/interface/src/periphery.rs: SwapInfoCompact"]}
{"id": "C55", "title": "Integer powers are powers", "statement": "pow(base, n) for whole n is base^n up to per-multiplication flooring, and in particular pow(base, 1) = base and pow(1, n) = 1; a mixed exponent uses the integer part's power.", "quantifier": "every base in (0,2) and exponent", "why_tests_cant": "All bases and exponents.", "anchors": ["packages/math/src/pow.rs: pow, pow_int"]}
{"id": "C56", "title": "Weighted pool simulation cannot drain or corrupt the pool", "statement": "A simulated exact-in swap never pays out more than the pool's output balance, updates exactly the two traded balances (+in, -out) and no weight; a simulated exact-out swap pays exactly the requested output.", "quantifier": "every pool and request", "why_tests_cant": "All pools.", "anchors": ["packages/pool/src/weighted.rs: apply_new_pool_assets, calc_out_amount_given_in, calc_in_amount_given_out"]}
{"id": "C57", "title": "Fee rates always stay in the validated range", "statement": "In every state the contract can get into, the mint and burn fee rates, if set, are strictly between 0 and 1, and the streaming rate, if set, is positive and at most the fixed maximum; no sequence of instantiation and governance updates stores any other rate.", "quantifier": "every instantiation followed by every history of transactions by anybody", "why_tests_cant": "It is an invariant over all histories; a single unchecked path (instantiation, update, rebalance end) would break it.", "anchors": ["contracts/core/src/state/fee.rs: validation of the fee payload", "contracts/core/src/execute/gov: update_fee_strategy", "contracts/core/src/contract.rs: instantiate"]}
{"id": "C58", "title": "An exhausted airdrop can be closed", "statement": "The creator can close an airdrop also when everything has been claimed.", "quantifier": "every history after which an airdrop's total claimed equals its total funding", "why_tests_cant": "the failure is in the bank transfer of zero coins after the contract returned, which contract unit tests never execute, and must hold for every history", "anchors": ["contracts/airdrop/src/execute/close.rs: close_open, close_bearer"]}
{"id": "C59", "title": "Airdrop listings are complete", "statement": "Walking through all pages of ListAirdrops (any filter, any page size, either order) returns every matching airdrop exactly once in order; walking ListClaims returns exactly the claims GetClaim confirms, and their sum is the claimed total; the by-label listing shows the airdrops of the listed labels.", "quantifier": "every history, filter, page size and order", "why_tests_cant": "needs every history and every page size; tests look at a few fixed pages", "anchors": ["contracts/airdrop/src/query/airdrop.rs: list_airdrops", "contracts/airdrop/src/query/claim.rs: list_claims", "contracts/airdrop/src/query/label.rs: list_labels"]}
{"id": "C60", "title": "Periphery operations are ordinary core histories", "statement": "Whatever a successful periphery operation does to the index contract is one ordinary mint or burn sent by the periphery contract itself, so every guarantee of the core contract carries over.", "quantifier": "every world, periphery request, pool answer and swap outcome", "why_tests_cant": "Quantifies over every request and every behaviour of the external pools; tests run isolated requests with mocked dependencies.", "anchors": ["contracts/periphery/src/execute.rs"]}
{"id": "C61", "title": "MintExactAmountOut, end to end", "statement": "A successful MintExactAmountOut delivers the requested index amount (less the core mint fee) to the sender, charges at most the attached amount, and leaves all other accounts except pools and the fee collector unchanged.", "quantifier": "every world, request, portfolio, fee and swap outcome", "why_tests_cant": "Needs the composition of periphery, swaps, core and bank; unit tests stop at the produced message list.", "anchors": ["contracts/periphery/src/execute.rs: mint_exact_amount_out, finish_operation"]}
{"id": "C62", "title": "MintExactAmountIn, end to end", "statement": "A successful MintExactAmountIn delivers at least min_output_amount index tokens to the sender and charges at most the attached amount.", "quantifier": "every world, request, portfolio, fee and swap outcome", "why_tests_cant": "Needs the composition with the core contract's fee and the bank.", "anchors": ["contracts/periphery/src/execute.rs: mint_exact_amount_in, finish_operation"]}
{"id": "C63", "title": "BurnExactAmountIn, end to end", "statement": "A successful BurnExactAmountIn burns exactly the attached index tokens and pays the sender at least min_output_amount.", "quantifier": "every world, request, portfolio, fee and swap outcome", "why_tests_cant": "Needs the composition with the core contract's payout and every swap outcome within its limit.", "anchors": ["contracts/periphery/src/execute.rs: burn_exact_amount_in, finish_operation"]}
{"id": "C64", "title": "BurnExactAmountOut, end to end", "statement": "A successful BurnExactAmountOut pays the sender at least the desired output amount and returns the unburnt index tokens.", "quantifier": "every world, request, portfolio, fee and swap outcome", "why_tests_cant": "Needs the composition with the core contract's payout and every swap outcome within its limit.", "anchors": ["contracts/periphery/src/execute.rs: burn_exact_amount_out, finish_operation"]}
{"id": "C65", "title": "Simulation queries predict execution", "statement": "Each Simulate query succeeds exactly when the corresponding execution is accepted and announces the amounts execution uses.", "quantifier": "every portfolio, pool answer, fee and request", "why_tests_cant": "Compares two code paths on all inputs.", "anchors": ["contracts/periphery/src/query.rs", "contracts/periphery/src/execute.rs: mint_exact_amount_in, mint_exact_amount_out, burn_exact_amount_in, burn_exact_amount_out"]}
{"id": "C66", "title": "Weighted pool simulation follows the weighted constant-function rule", "statement": "A simulated swap through a weighted pool never returns more (asks for less) than the weighted constant-function market maker rule allows, up to rounding.", "quantifier": "every pair of balances, weights and amounts", "why_tests_cant": "All balances and weight ratios, with a power series in fixed-point arithmetic.", "anchors": ["packages/pool/src/weighted.rs: calc_out_amount_given_in, calc_in_amount_given_out", "packages/math/src/pow.rs"]}
{"id": "C67", "title": "The periphery keeps nothing", "statement": "After a successful operation the periphery contract holds no tokens that came from the sender.", "quantifier": "every world in which the periphery starts empty, every request", "why_tests_cant": "Depends on rounding and every swap outcome.", "anchors": ["contracts/periphery/src/execute.rs: finish_operation"]}
{"id": "C68", "title": "Paying exactly the cost is enough", "statement": "A user who attaches exactly the amount that will be spent gets the operation executed.", "quantifier": "every request and portfolio", "why_tests_cant": "The failure is in the bank transfer of zero coins after the contract returned.", "anchors": ["contracts/periphery/src/execute.rs: finish_operation"]}
{"id": "C69", "title": "A swap of a denom against itself is rejected or neutral", "statement": "Simulating a weighted pool swap whose input and output denom coincide fails or changes nothing.", "quantifier": "every pool and amount", "why_tests_cant": "All pools and amounts; tests only swap between distinct denoms.", "anchors": ["packages/pool/src/weighted.rs: apply_new_pool_assets"]}
{"id": "C70", "title": "Registering an airdrop is possible exactly when its requirements are met", "statement": "Register is accepted if and only if the sender attaches exactly one non-zero coin of the airdrop's denom (and owns it), the merkle root is hexadecimal text (any case) of 32 bytes, no airdrop has the label creator/label yet, for bearer airdrops the signature proves ownership of the signer key whose address is valid, and the id counter has room.", "quantifier": "every reachable state, sender, funds, root, key, signature and label", "why_tests_cant": "Both directions must hold for all inputs; tests only sample accepted and rejected messages.", "anchors": ["contracts/airdrop/src/execute/register.rs", "contracts/airdrop/src/verify.rs"]}
{"id": "C71", "title": "Airdrops are independent of each other", "statement": "A transaction about one airdrop (or a registration) leaves the record, the claims and the label of every other airdrop unchanged.", "quantifier": "every reachable state, every accepted transaction, every other airdrop", "why_tests_cant": "Needs every pair of airdrops and every message; shared storage prefixes or label collisions show only for particular keys.", "anchors": ["contracts/airdrop/src/state.rs", "contracts/airdrop/src/execute/"]}
{"id": "C72", "title": "Fractional powers are accurate to the announced precision", "statement": "pow(base, exp) terminates for every base in (0,2) and fractional exp and differs from the real power base^exp by at most its precision of 10^-8.", "quantifier": "every base in (0,2) and every exponent", "why_tests_cant": "The error of a truncated series in fixed-point arithmetic over all bases and exponents.", "anchors": ["packages/math/src/pow.rs: pow, pow_approx, POW_PRECISION"]}
{"id": "C73", "title": "Governance messages do exactly what they announce, exactly for governance", "statement": "Nominate, accept, revoke, fee update, manager update, reserve-denom update and trade-info update are accepted exactly under their documented conditions, and an accepted one changes exactly the announced item of the state (a fee update also accrues up to now and starts a fresh streaming record; a trade-info update starts without a cooldown) and sends nothing.", "quantifier": "every state, sender, time and payload", "why_tests_cant": "Both directions over all states and payloads.", "anchors": ["contracts/core/src/execute/gov/update.rs", "contracts/core/src/execute/gov/pause.rs"]}
{"id": "C74", "title": "A rebalance starts exactly for a valid plan", "statement": "Rebalance init is accepted exactly when governance sends it outside a rebalance with something to deflate and something to inflate, no denom listed twice, and every deflation target at most the denom's current unit (after accrual); it then freezes the streaming fee, stores the plan with an empty reserve and changes nothing else.", "quantifier": "every state, sender, time and plan", "why_tests_cant": "All plans against all baskets.", "anchors": ["contracts/core/src/execute/rebalance/init.rs", "contracts/core/src/state/rebalance.rs: Rebalance::validate"]}
{"id": "C75", "title": "Trades are accepted exactly within their limits", "statement": "A deflate or inflate trade is accepted exactly when a rebalance is open, the caller may trade, the pair is registered and cooled down (including exactly at the end of the cooldown), and all amounts are within the caller's and governance's limits; the resulting state and swap message are determined by the simulated amount.", "quantifier": "every state, sender, time, market answer and trade", "why_tests_cant": "All market answers, limits and times including every boundary.", "anchors": ["contracts/core/src/execute/rebalance/trade/deflate.rs", "contracts/core/src/execute/rebalance/trade/inflate.rs", "contracts/core/src/execute/rebalance/trade/mod.rs"]}
{"id": "C76", "title": "Instantiation accepts exactly valid baskets and fees", "statement": "Instantiation succeeds exactly for a basket without duplicate denoms, valid governance and collector addresses and fee rates in range, and starts unpaused with no supply, no nominee, no rebalance and no trade info.", "quantifier": "every instantiation message", "why_tests_cant": "All messages.", "anchors": ["contracts/core/src/contract.rs: instantiate, reply"]}
{"id": "C77", "title": "Simulations are consecutive swaps", "statement": "A simulated sale (purchase) of a basket is worth exactly what selling (buying) its coins one after the other along the caller's routes is worth, hop by hop, where every swap meets the pools as the swaps before it left them; a purchase is priced from the last hop back, and the swap messages carry the same routes forward with limits in proportion to the simulated amounts.", "quantifier": "every basket, index amount, set of routes (also sharing pools) and pools", "why_tests_cant": "All combinations of routes and pools; only shared pools reveal a stale price.", "anchors": ["packages/pool/src/sim/index_in.rs: estimate_out_given_in, estimate_token_given_index_in", "packages/pool/src/sim/index_out.rs: estimate_in_given_out, estimate_token_given_index_out", "packages/pool/src/sim/route.rs: to_msgs"]}
{"id": "C78", "title": "Periphery messages are accepted exactly when they can be served", "statement": "Every periphery message succeeds exactly when the core contract and the pools on the routes answer, the attached coin is the required one, the simulation (and search) succeeds and meets the caller's limit, and it then emits exactly the stated swaps, core call and refunds.", "quantifier": "every message, sender, attached funds and answers of the core contract, the pools and the chain", "why_tests_cant": "Both directions over all answers.", "anchors": ["contracts/periphery/src/execute.rs", "packages/pool/src/sim/mod.rs: estimate_index_for_input, estimate_index_for_output"]}
{"id": "C79", "title": "Simulation queries answer exactly the announced quote", "statement": "Every simulation query answers exactly when the core contract and the pools answer and the simulation succeeds; the answer is the fee-adjusted index amount, its basket in denom order and the simulated swap amount.", "quantifier": "every query and all answers of the core contract, the pools and the chain", "why_tests_cant": "Both directions over all answers.", "anchors": ["contracts/periphery/src/query.rs"]}
{"id": "C80", "title": "Weighted swaps are priced exactly when the pool can serve them", "statement": "A simulated sale into a weighted pool is priced exactly when the fee is at most 100%, the pool trades both coins with a positive output weight, and the sale moves the pool's price by at least one unit in the last place of an 18-digit fixed-point number without driving it to zero; a simulated purchase is priced exactly when the fee is below 100%, the pool trades both coins with a positive input weight, less than half of the output balance is asked for, and the 18-digit power of the price and the cost it gives fit in 256 bits, which they always do for fees up to one half and weight ratios up to 60.", "quantifier": "every weighted pool with 128-bit balances and weights, every fee, pair of coins and amount", "why_tests_cant": "Whether some pool, fee or amount makes the series for fractional powers overflow, panic or run forever ranges over all fixed-point bases and exponents; tests sample a few pools.", "anchors": ["packages/pool/src/weighted.rs: swap_exact_amount_in, swap_exact_amount_out, solve_constant_function_invariants", "packages/math/src/pow.rs: pow, pow_approx"]}
{"id": "C81", "title": "The published receipts keep an index reader's books right", "statement": "Every successful transaction with the index contract publishes one receipt naming the method and the caller. Reading only the receipts (with block height and time), a reader who knew the state once knows at every later moment the token supply, the governor and the pending governor, the pause and its expiry, the reserve denom, whether a rebalance runs and who manages it, and every trade route with its cooldown, maximum and last trade time. A mint's receipt shows the amount minted, a burn's the amount destroyed, a trade's the amounts of the swap the contract orders. (The fee strategy and the portfolio are not recoverable: the fee update's receipt omits the new fees.)", "quantifier": "every history of transactions, transfers and failed attempts from every state", "why_tests_cant": "Indexers and front ends rebuild state from attributes over the whole life of the contract; an attribute taken from the wrong moment or variable shows only in some interleaving of messages.", "anchors": ["contracts/core/src/execute/token.rs: mint_event, burn_event", "contracts/core/src/execute/gov/update.rs", "contracts/core/src/execute/gov/pause.rs", "contracts/core/src/execute/rebalance/trade/deflate.rs", "contracts/core/src/execute/rebalance/trade/inflate.rs"]}
{"id": "C82", "title": "The published receipts keep an airdrop reader's books right", "statement": "Every successful transaction with the airdrop contract publishes one receipt naming the caller, and from the receipts of a contract's whole life a reader recovers every airdrop's kind, signer, creator, root, label, total, claimed amount, creation and closing heights, what each account claimed from each open airdrop, and how much each airdrop has paid out. Every payment is named by its receipt with recipient and amount.", "quantifier": "every history from a freshly instantiated contract, every hash and signature scheme", "why_tests_cant": "Agreement of the reconstructed books has to survive every order of registrations, funding, claims and closings by id and by label.", "anchors": ["contracts/airdrop/src/execute/register.rs: register_open_event, register_bearer_event", "contracts/airdrop/src/execute/fund.rs: fund_event", "contracts/airdrop/src/execute/claim.rs: claim_open_event, claim_bearer_event", "contracts/airdrop/src/execute/close.rs: close_event"]}
{"id": "C83", "title": "The periphery's receipts report what the user paid and received", "statement": "Every successful periphery transaction publishes its receipt; the input it reports is exactly the coin attached, the index amount a mint reports is what the user's balance gains, or one unit less, the refund a mint of an exact amount reports is the change at the simulated price, and the closing call reports exactly the coins it returns.", "quantifier": "every successful periphery transaction of an ordinary user in every reachable world", "why_tests_cant": "The reported amounts are computed separately from the messages that move the coins; their agreement depends on every fee rate, price and rounding.", "anchors": ["contracts/periphery/src/execute.rs: mint_exact_amount_in, mint_exact_amount_out, burn_exact_amount_in, burn_exact_amount_out, finish_operation"]}
{"id": "C84", "title": "Pool answers are told apart by their type name", "statement": "The chain's answer to a pool query is read as a weighted pool exactly when its text begins with {\"pool\":{\"@type\":\"/osmosis.gamm.v1beta1.Pool\", as a stable pool exactly when it begins with the stableswap type's name followed by one of the bytes 32 to 35, as a concentrated pool exactly when it begins with that type's name up to its last letter; every other answer is skipped. Loading a list of pools succeeds exactly when every id is answered and every recognised answer can be parsed, and yields the recognised pools in the order of the ids.", "quantifier": "every byte string the chain may answer, every list of ids, every JSON reader", "why_tests_cant": "The code compares base64 prefixes whose lengths are not all multiples of four, so which texts match is a statement about all byte strings.", "anchors": ["packages/pool/src/query.rs: decode_pool, query_pools, POOL_WEIGHTED, POOL_STABLE, POOL_CONCENTRATED"]}
{"id": "C85", "title": "The streaming fee over a period stays within the announced rate, however often the contract is touched", "statement": "Over any history without rebalance messages and fee updates, the weight of every basket denom never grows; with T the seconds charged, it falls by at most the exact compound interest of T seconds, and at least to weight*(1-rate)^T up to 10^-18 per update. One more update in between never costs holders more than rounding (it costs the collector, as an example shows).", "quantifier": "every reachable state, every history of mints, burns, withdrawals, transfers, issues and governance messages other than fee updates, every denom, every pair of update times", "why_tests_cant": "Each update rounds the rate, the weights and the claims; what accumulates over an unbounded number of updates at arbitrary times is not visible in any finite schedule.", "anchors": ["contracts/core/src/state/fee.rs: StreamingFee::collect", "contracts/core/src/contract.rs: execute", "contracts/core/src/execute/fee.rs: collect_streaming_fee"]}
{"id": "C86", "title": "The published text of a receipt can be read back without ambiguity", "statement": "If two successful calls of the index contract (or two of the airdrop contract, or two of the periphery contract with denoms that do not begin with a digit) publish attributes with the same text, the attributes had the same values: numbers, addresses, labels, trade routes with any denoms, pause expiry. Hence two whole histories that look the same on the chain leave the same supply, government, pending government, pause, reserve denom, rebalance manager and trade configuration, and the same airdrops and claims.", "quantifier": "all pairs of messages, senders, states and chain answers; all pairs of histories from states with the same books; all denoms including ones with quotes and backslashes", "why_tests_cant": "injectivity of a text format quantifies over pairs of arbitrary values; a test compares a few strings", "anchors": ["contracts/core/src/execute/gov/update.rs:update_trade_info", "packages/interface/src/types.rs:SwapRoutes", "contracts/periphery/src/execute.rs", "contracts/airdrop/src/execute/register.rs"]}
{"id": "C87", "title": "The package's own StableSwap formula gives no quotes for pools of ordinary size, and is not a StableSwap curve on tiny ones", "statement": "For every pool of at most eight assets whose scaled reserves lie between L and 10 L with L at least 300000, the formula rejects every exact-input request and every exact-output request for at most half of the smallest reserve. Where it gives an exact-input quote it is below the reserve of the denom asked for. It does not keep the curve: there is a pool that pays more than the curve allows, one that charges more than twice what the curve asks, and a denom not in the pool that is quoted.", "quantifier": "all pools, amounts, denoms and fees", "why_tests_cant": "rejection of every request in an unbounded range of reserves follows from an inequality between terms of degree twelve; tests try a few pools", "anchors": ["packages/pool/src/stable.rs: solve_cfmm_direct, calc_out_amount_given_in, calc_in_amount_given_out"]}
{"id": "C88", "title": "Core queries answer exactly, for any asked moment", "statement": "Asked for a moment, GetConfig, GetFee, GetPortfolio, SimulateMint and SimulateBurn answer as the same query asked at that moment, whatever the block time is. What they answer is exact: the config with the pause as it stands then, the basket after accrual with the assets the whole supply is worth, the change and price of a mint (with the given funds, or with exactly its own price when none are given), the redemption of a burn; otherwise the query fails. GetRebalance shows the plan given to the last Init with the manager last set, until Finalize.", "quantifier": "every reachable state, moment, amount and funds", "why_tests_cant": "the answers must be right for every basket, accrual period and asked moment; tests ask for a few fixed ones", "anchors": ["contracts/core/src/query.rs: get_config, get_fee, get_portfolio, get_rebalance, simulate_mint, simulate_burn", "contracts/core/src/state/units.rs: calc_require_amount, calc_refund_amount"]}
{"id": "C89", "title": "Airdrop labels are listed completely and read back", "statement": "Walking through all pages of ListLabels (any page size, either order) returns every label that names an airdrop exactly once, in order, with the id it names; each entry is split at its first slash into creator and label and GetLabel on the joined text returns the same entry. GetLabel answers exactly for labels that name an airdrop.", "quantifier": "every history, page size and order", "why_tests_cant": "labels may contain further slashes, and completeness needs every history and every page size", "anchors": ["contracts/airdrop/src/query/label.rs: get_label, list_labels"]}
{"id": "C90", "title": "The signer shown for a bearer airdrop identifies its key", "statement": "For every bearer airdrop that exists, the signer shown is the bech32 address (prefix osmo) of the stored public key, it passed address validation, and the holder of that key has signed that address. The text is 43 characters long, starts with osmo1, carries a right checksum and contains neither / nor :. Two bearer airdrops that show the same signer have keys with the same hash, and a text differing from an address in one character behind the prefix never has a right checksum.", "quantifier": "all histories of the airdrop contract, all keys, signatures and hash functions with 20-byte results, all texts and positions of a wrong character", "why_tests_cant": "Injectivity of the encoding and the checksum's guarantee range over all hashes and all one-character errors; that no path stores an unproved signer ranges over all histories.", "anchors": ["contracts/airdrop/src/verify.rs: pub_to_addr", "contracts/airdrop/src/execute/register.rs: register_bearer", "contracts/airdrop/src/airdrop.rs: BearerAirdrop"]}
{"id": "C91", "title": "Records never overwrite each other in storage and listings read them completely, in order", "statement": "On the chain's flat byte-ordered key-value store, every airdrop, index entry, label and claim has a key of its own, whatever the names, labels and ids. Run on that store, every history has the outcome it has on separate maps: each transaction is accepted or refused alike, with the same error, the same payments and the same records. Every query and listing (all airdrops, by type, by creator, by label, labels, claims of one airdrop), with any start, limit and order, reads from the store exactly the matching records in ascending or descending order of ids and texts, never another airdrop's, type's or creator's.", "quantifier": "all histories of the airdrop contract with u64 ids and senders below 65535 bytes, all creators, labels, claim keys, starts, limits and orders", "why_tests_cant": "Key collisions and range bounds depend on all byte strings: length prefixes, ids whose last byte is 255, names that are prefixes of other names, removed and rewritten index entries after every possible sequence of updates.", "anchors": ["contracts/airdrop/src/state.rs: airdrops, AirdropIndexes, LATEST_AIRDROP_ID, LABELS, CLAIM_LOGS, load_airdrop", "contracts/airdrop/src/query/airdrop.rs: list_airdrops", "contracts/airdrop/src/query/claim.rs: get_claim, list_claims", "contracts/airdrop/src/query/label.rs: get_label, list_labels", "packages/interface/src/lib.rs: range_option"]}
{"id": "C92", "title": "The index contract's records are stored apart and trade routes read back exactly", "statement": "In the index contract's flat key-value store, configuration, nominated governance, fees, supply, units, rebalance, reserve, version and every trade route (input denom, output denom) have distinct keys, also when two pairs of denoms join to the same text. Saving or removing one of them leaves every other record as it was. The routes listed for an input denom, with any start, limit and order, and the single route shown for a pair, are exactly those registered for it.", "quantifier": "all states of the index contract, all stores holding them, all denoms below 65535 bytes, all starts, limits and orders", "why_tests_cant": "Collisions between pairs of denoms and the bounds of a range depend on all byte strings.", "anchors": ["contracts/core/src/state/mod.rs: CONFIG, PENDING_GOV, FEE, TOTAL_SUPPLY, INDEX_UNITS, REBALANCE, RESERVE_UNITS, TRADE_INFOS", "contracts/core/src/query.rs: get_trade_info, list_trade_info", "packages/interface/src/lib.rs: range_option"]}
{"id": "C93", "title": "Version texts decide upgrades by semantic-version precedence, and no version returns", "statement": "The version texts that can be read are exactly the semantic versions (three u64 numbers without needless zeros, optional pre-release and build identifiers); any other stored or new text makes an unforced migration fail. An unforced migration succeeds exactly when the contract name matches and the new version comes later in semantic-version precedence (numbers first, pre-releases before their release, identifiers left to right, numeric ones by value and before words), or has the same precedence and later build metadata. The order is a strict total order, so in any sequence of unforced migrations the versions strictly rise and no version comes back.", "quantifier": "all stored names and texts, all new texts, all sequences of migrations", "why_tests_cant": "The grammar and the order range over all texts; that no cycle of upgrades exists needs transitivity for all of them.", "anchors": ["packages/utils/src/lib.rs: store_version", "contracts/core/src/contract.rs: migrate", "contracts/airdrop/src/contract.rs: migrate", "contracts/periphery/src/contract.rs: migrate"]}
{"id": "C94", "title": "JSON texts are read by one grammar, unambiguously, and what is written is read back", "statement": "The texts a contract can read are exactly those of the JSON grammar (blanks anywhere between tokens, string escapes including surrogate pairs, unsigned 64-bit numbers without leading zeros, no trailing commas, nothing after the value), each with exactly one meaning. Every tree that is written is written as such a text and read back as itself, whatever characters its strings contain. Amount texts denote exactly the numbers below 2^128 (digits, leading zeros and one plus sign allowed); decimal texts denote exactly the values with at most 18 digits behind the point that fit; the text written for an amount or a decimal is read back as the same value.", "quantifier": "all texts, all JSON trees, all amounts and decimals", "why_tests_cant": "A parser is a statement about all texts, including malformed and hostile ones; ambiguity and escaping errors hide in rare characters.", "anchors": ["packages/interface/src/core.rs", "packages/interface/src/airdrop.rs", "packages/interface/src/periphery.rs", "contracts/core/src/contract.rs: instantiate, execute, query, migrate", "contracts/airdrop/src/contract.rs: instantiate, execute, query, migrate", "contracts/periphery/src/contract.rs: instantiate, execute, query, migrate"]}
{"id": "C95", "title": "Exact wire form of every message and query of the three contracts", "statement": "For each message and query of the index, airdrop and periphery contracts the accepted texts are exactly those whose JSON has the documented shape: the operation's snake_case name with its fields, each mandatory field once, optional ones possibly absent or null, no unknown or repeated field, values in the range of their type. The order of fields, blanks and the spelling of characters are irrelevant; two readings of one text never differ; every message that can be built is written as a text that is read as exactly that message, and nothing outside the types' ranges is ever received. The listing of airdrops by id is understood only under the name by_i_d.", "quantifier": "all texts and all messages of all message types", "why_tests_cant": "Tests send a few well-formed messages; acceptance and rejection concern all texts, and round trip all field values.", "anchors": ["packages/interface/src/core.rs: InstantiateMsg, GovMsg, RebalanceMsg, RebalanceTradeMsg, ExecuteMsg, QueryMsg, MigrateMsg", "packages/interface/src/airdrop.rs: AirdropId, RegisterPayload, ClaimPayload, ExecuteMsg, ListAirdropsQueryOptions, QueryMsg", "packages/interface/src/periphery.rs: SwapInfoCompact, ExecuteMsg, QueryMsg", "packages/interface/src/types.rs: SwapRoute, RangeOrder"]}
{"id": "C96", "title": "Calls built by the client helpers reach the contract as the intended message", "statement": "Every message built with the index contract's client helper and every question it asks is received by the index contract as exactly that message or question; a message the periphery contract sends to itself is received as sent; and no text is understood by two of the three contracts, as message or as query. The same should hold for the periphery contract's client helper; it does not: that helper writes the index contract's messages, and every call it builds is refused by the periphery contract.", "quantifier": "all messages and queries, all texts", "why_tests_cant": "Needs all messages; the faulty helper is never exercised by the tests.", "anchors": ["packages/interface/src/helpers/core.rs: IbcCore", "packages/interface/src/helpers/periphery.rs: IbcPeriphery", "contracts/periphery/src/execute.rs"]}
{"id": "C97", "title": "Stable and concentrated pools are quoted by the chain, each swap as if it were the first", "statement": "A simulated swap through a stable or concentrated pool is answered exactly by the chain's single-hop estimate for that pool, denom and amount (the selling estimate for exact input, the buying one for exact output), fails when the estimate fails, exceeds 128 bits or the pool's fee does not parse, and leaves the simulated pool as it was. Hence, with only such pools, the simulated yield and cost of a basket are the sums of its denoms priced alone: swaps made earlier in the same simulation are not felt by later ones through the same pool.", "quantifier": "all estimates of the chain, pools, routes, baskets and amounts", "why_tests_cant": "The chain's answers are arbitrary; independence of the order of swaps concerns all routes sharing pools.", "anchors": ["packages/pool/src/stable.rs: swap_exact_amount_in, swap_exact_amount_out", "packages/pool/src/concentrated.rs: swap_exact_amount_in, swap_exact_amount_out", "packages/pool/src/sim/", "packages/interface/src/types.rs: sim_swap_exact_in, sim_swap_exact_out"]}
{"id": "C98", "title": "Every stored and sent number stays within the range of its type", "statement": "Whatever texts are sent to the index contract after its creation, in any order, by anyone, with any funds: every amount, rate and unit it stores stays below 2^128 and every time, cooldown and pool id below 2^64, and so does every amount in the messages it sends; the same holds for the airdrop contract's totals, claims, ids, heights and labels. No operation ever silently wraps around: it either fits or is refused.", "quantifier": "all creation texts, all finite sequences of call texts with their senders, funds and times", "why_tests_cant": "Overflow needs extreme numbers reached through particular histories.", "anchors": ["contracts/core/src/contract.rs: instantiate, execute", "contracts/airdrop/src/contract.rs: execute", "contracts/core/src/state"]}
{"id": "C99", "title": "Answers are texts that say exactly what the contract computed", "statement": "Each of the three contracts answers a text precisely when it puts one of its questions and the question has an answer in the present state; the answer is a JSON text of the declared response form which states the computed values, each under its own name, and nothing else, and has only that one meaning. A client of the index contract that asks and reads the reply as the declared type gets exactly the computed value or the failure. An airdrop is shown with its bearer key in lower-case hex, a claim check gives a reason exactly when it is not valid. In particular the periphery contract, which learns fees, index denom and units only through such texts, sees what a direct look into the index contract's state would show.", "quantifier": "all texts, all states with numbers in range, all times and balances", "why_tests_cant": "Ranges over all texts and states; the encoding itself is bypassed by unit tests that call query functions directly.", "anchors": ["contracts/core/src/contract.rs: query", "contracts/airdrop/src/contract.rs: query", "contracts/periphery/src/contract.rs: query", "packages/interface/src/core.rs: response types", "packages/interface/src/airdrop.rs: response types, to_resp", "packages/interface/src/periphery.rs: response types", "packages/interface/src/helpers/core.rs: IbcCore"]}
{"id": "C100", "title": "On the chain, texts do exactly what the messages they put would do", "statement": "A text sent to the index, periphery or airdrop contract takes effect if and only if it puts one of the contract's messages and that message would be accepted, and then has exactly the message's effect on state and balances, even though the periphery contract in turn calls the index contract and itself by texts and learns fees, index denom and units only from texts. Hence after any history of texts and bank transfers since a creation by text, the world is one reachable by messages, with all numbers in range, so every property of reachable worlds holds of it: for instance the answer to the supply question is the text of the number of index tokens in existence.", "quantifier": "all creation texts; all finite histories of texts to the contracts and bank events; all pool behaviours and environments", "why_tests_cant": "Concerns the composition of encoders, decoders and three contracts over all histories; the project's tests bypass it by calling functions with values.", "anchors": ["contracts/core/src/contract.rs: instantiate, execute, query", "contracts/periphery/src/contract.rs: execute", "contracts/periphery/src/execute.rs", "contracts/airdrop/src/contract.rs: execute", "packages/interface/src/helpers/core.rs"]}
{"id": "C101", "title": "The index contract on the bytes of its store", "statement": "Each entry point of the index contract - creation with the token factory's reply, every message, migration - reads the JSON texts lying under the contract's keys and writes texts back. If the store holds the texts of a state's records, then a message succeeds on the bytes exactly when it succeeds on the state, with the same error otherwise; it leaves the texts of exactly the new state's records and sends the same messages. Creation leaves the texts of the initial state; migration changes the version record only. A stored text has the documented form and one meaning.", "quantifier": "all stores, states with numbers in range, messages, environments, senders and funds; denoms used as key prefixes below 65535 bytes", "why_tests_cant": "Tests check single fields after single messages on a mock store; that no save is forgotten, misplaced or written in a form that reads back differently concerns all states and messages.", "anchors": ["contracts/core/src/state/mod.rs", "contracts/core/src/contract.rs: instantiate, execute, reply, migrate", "contracts/core/src/execute/token.rs", "contracts/core/src/execute/fee.rs", "contracts/core/src/execute/gov", "contracts/core/src/execute/rebalance"]}
{"id": "C102", "title": "After any history of texts the index contract's store reads back and answers exactly", "statement": "After creation by a text and any sequence of calls given as texts, failed calls and migrations, every record in the store reads back as the record of the state the history leads to, the store contains nothing else, the next call succeeds or fails as on that state and leaves its successor, and every question asked as a text gets, byte for byte, the answer computed from that state.", "quantifier": "all creation texts, all finite histories of texts and migrations, all environments and questions; denoms used as key prefixes below 65535 bytes", "why_tests_cant": "Quantifies over all histories of texts; a record that cannot be read back would only show in states no test reaches.", "anchors": ["contracts/core/src/contract.rs: instantiate, execute, query, migrate", "contracts/core/src/query.rs", "contracts/core/src/state/mod.rs", "packages/utils/src/lib.rs: store_version"]}
{"id": "C103", "title": "The airdrop contract computes on the bytes of its store exactly as on its records", "statement": "After creation by a text and any sequence of calls given as texts, failed calls and migrations, the airdrop contract's store holds, as JSON texts under the library's keys, exactly the airdrops, labels, claims, index entries and counter of the state the history leads to and nothing else; each reads back as written, including the signer's key in base64. The next call succeeds or fails as on that state with the same payments, and every question gets, byte for byte, the answer computed from that state.", "quantifier": "all creation texts, all finite histories of texts and migrations, all signature and hash oracles, all questions; names used as key prefixes below 65535 bytes", "why_tests_cant": "Quantifies over all histories of texts; a record that cannot be read back, or an index entry left behind, would only show in states no test reaches.", "anchors": ["contracts/airdrop/src/contract.rs: instantiate, execute, query, migrate", "contracts/airdrop/src/state.rs", "contracts/airdrop/src/execute", "contracts/airdrop/src/query/airdrop.rs", "contracts/airdrop/src/query/claim.rs", "contracts/airdrop/src/query/label.rs"]}
{"id": "C104", "title": "Three contracts on one chain do not disturb each other", "statement": "Put the index, the periphery and the airdrop contract on one chain with one bank, the two stores as bytes and all calls as texts. After any history of calls, transfers, issues and migrations each contract's state and the bank are ones that a history of that contract alone leads to, so every guarantee given for one contract alone holds beside the others. A call succeeds or fails as it does for that contract alone, with the same effects; it leaves the other contract's stored bytes as they were; nothing but its own calls takes coins from the airdrop contract; a call of the airdrop contract takes coins from nobody but its sender and changes no supply.", "quantifier": "all creation texts, all finite histories of texts, transfers of several coins, issues, destructions and migrations, all pool behaviours that keep no coins with the contracts, all signature and hash oracles; three distinct addresses; key prefixes below 65535 bytes", "why_tests_cant": "Quantifies over all interleavings of all calls of three contracts sharing one bank; the tests of the repository run each contract alone.", "anchors": ["contracts/core/src/contract.rs: instantiate, execute, query, migrate", "contracts/periphery/src/contract.rs: execute", "contracts/periphery/src/execute.rs", "contracts/airdrop/src/contract.rs: instantiate, execute, migrate", "packages/interface/src/helpers/core.rs"]}
{"id": "C105", "title": "The TypeScript client says to the contracts what its caller says to it", "statement": "Take the TypeScript client library: for every call of a method (arguments as the types allow; numbers non-negative integers, NaN or Infinity) of the index, airdrop or periphery client and every text JSON.stringify can send for it, the contract reads the message the caller named, with the same amounts, addresses, routes and options, and refuses the text exactly when an argument is not a value of the contract's type (a malformed decimal, a number out of range, NaN or Infinity where a number is needed). Leaving an optional argument out and passing null mean the same. The same holds for queries, for deployment and for migration. Every message whose numbers are at most 2^53-1 can be sent with the client.", "quantifier": "all methods, all argument values including undefined, null, NaN and Infinity (numbers otherwise non-negative integers that JSON.stringify writes in digits, no extra members of a Coin), all JSON texts of the resulting object", "why_tests_cant": "The client is generated TypeScript and the contracts are Rust; no test runs both, and agreement must hold for every argument value.", "anchors": ["ts/sdk/src/contracts/Core.client.ts", "ts/sdk/src/contracts/Core.message-composer.ts", "ts/sdk/src/contracts/Core.types.ts", "ts/sdk/src/contracts/Airdrop.client.ts", "ts/sdk/src/contracts/Airdrop.types.ts", "ts/sdk/src/contracts/Periphery.client.ts", "ts/sdk/src/contracts/Periphery.types.ts", "packages/interface/src/core.rs: ExecuteMsg, QueryMsg", "packages/interface/src/airdrop.rs", "packages/interface/src/periphery.rs"]}
{"id": "C106", "title": "The TypeScript client gets answers of the types it promises", "statement": "For every query method of the index, airdrop and periphery client: when a contract answers the text the method sends, the answer is a JSON text of the type the method's promise declares (every required member there, optional members there, null or left out, no undeclared member except in coins), and it states what the contract computes for the question the caller named.", "quantifier": "all query methods, all argument values as in C105, all JSON texts of the question, all contract states and bank balances whose numbers are within the ranges of their types (which C98 shows for every history), all times, pool behaviours and signature oracles", "why_tests_cant": "The types are erased when the TypeScript is compiled and no test runs the client against a contract; agreement must hold for every state and question.", "anchors": ["ts/sdk/src/contracts/Core.types.ts: GetConfigResponse, GetFeeResponse, GetPortfolioResponse, GetRebalanceResponse, GetTradeInfoResponse, ListTradeInfoResponse, SimulateMintResponse, SimulateBurnResponse", "ts/sdk/src/contracts/Core.client.ts: CoreReadOnlyInterface", "ts/sdk/src/contracts/Airdrop.types.ts: GetAirdropResponse, GetClaimResponse, GetLabelResponse, VerifyClaimResponse", "ts/sdk/src/contracts/Airdrop.client.ts: AirdropReadOnlyInterface", "ts/sdk/src/contracts/Periphery.types.ts", "ts/sdk/src/contracts/Periphery.client.ts: PeripheryReadOnlyInterface", "contracts/core/src/query.rs", "contracts/airdrop/src/query/airdrop.rs", "contracts/airdrop/src/query/claim.rs", "contracts/airdrop/src/query/label.rs", "contracts/periphery/src/query.rs"]}
{"id": "C107", "title": "The deployment scripts create the index their configuration describes", "statement": "The mainnet and the testnet deployment script are accepted exactly when the configured dao is an address, the resulting denoms are pairwise different and every configured unit is a number from 10^-6 up with at most 18 decimal places that fits a Decimal. The index created then has exactly the configured denoms with exactly the configured units (no rounding), the dao as governance and fee collector, no index token in circulation, reserve uosmo, and the fees written in the script (mainnet: 0.15 % burn fee and streaming rate 0.000000000173926 per second; testnet: none). Units below 10^-6 are written in exponent notation by the script and are refused, so not every reasonable configuration can be deployed.", "quantifier": "all configurations (any number of assets, any finite non-negative JavaScript numbers as units, any aliases), all reports of created denoms, all JSON texts of the message, all blocks and address rules", "why_tests_cant": "Number formatting and decimal parsing have infinitely many inputs with several notation ranges; the scripts have no tests, only the configurations in the repository have ever been run.", "anchors": ["ts/deployer/src/mainnet/4_deploy.ts: initCoreMsg", "ts/deployer/src/testnet/4_deploy.ts: initCoreMsg", "ts/deployer/src/config.ts: ConfigArgs", "contracts/core/src/contract.rs: instantiate"]}
{"id": "C108", "title": "How far the published rebalance script gets", "statement": "The testnet rebalance script registers trades of both denoms for the reserve denom only. On an index where no trade of the reserve denom for the denom to be bought has been registered otherwise, its fifth call (the purchase) is never accepted, whatever anybody else mints, burns, realizes or transfers in between; so the script never reaches its last call. If its call that starts the rebalance was accepted, the index is left in the rebalance and no mint or burn is accepted. That the script finishes the rebalance it starts is refuted by an index on which the first four calls are accepted.", "quantifier": "all index states and balances with that reserve denom and without that trade, all denoms, pool numbers and senders, all block times, all interleavings with messages of other users that are neither governance nor rebalance messages, all behaviours of the pools", "why_tests_cant": "The script is run by hand against a live chain and has no test; the claim covers every state of the index, every market and every interleaving.", "anchors": ["ts/deployer/src/testnet/7_rebalance.ts: main", "contracts/core/src/execute/gov/update.rs: update_trade_info", "contracts/core/src/execute/rebalance/trade/inflate.rs: inflate"]}
{"id": "C109", "title": "The mint-and-burn smoke test passes on every healthy index without fees", "statement": "On every index without fees that is neither paused nor in a rebalance, and whatever its history, the smoke test script (mint 100 million base units with one coin of each basket denom, each computed in floating point and rounded up, then burn what was minted) has both calls accepted, as long as the floating-point error is less than one base unit, the sender owns the coins and nothing overflows. The balance of the index token rises by exactly the amount and returns to what it was, the index is exactly as before, and the sender loses nothing except one base unit of each denom of which the amount is worth less than one base unit.", "quantifier": "all reachable indexes with those properties, all units, all senders, all block times, all orders of the coins and all roundings within one base unit", "why_tests_cant": "The script is itself a test with one basket; the claim covers every basket, every history and every floating-point rounding.", "anchors": ["ts/deployer/src/testnet/5_mint-burn.ts: main", "contracts/core/src/execute/token.rs: mint, burn"]}
{"id": "C110", "title": "Set-up and deployment on the testnet agree on the denoms", "statement": "If no created denom contains the alias of a later asset, then after the set-up script the testnet deployment creates an index that holds every asset with an alias under the factory denom created for that alias, every other asset under its own denom, each with its configured unit; it is refused exactly when the dao is no address, two of these denoms are equal or a unit does not pass. That different origins and aliases are enough is refuted: with the aliases stuatom and uatom in this order the report gives both assets the denom of the first, and the deployment is refused.", "quantifier": "all configurations with different origins, all wallets, all block times, all index denoms", "why_tests_cant": "The scripts have no tests and are run by hand with one configuration; the claim covers every configuration.", "anchors": ["ts/deployer/src/testnet/1_setup.ts: main", "ts/deployer/src/testnet/4_deploy.ts: main", "contracts/core/src/contract.rs: instantiate"]}
{"id": "C111", "title": "The routes of the periphery scripts", "statement": "The contract reads every list of routes the mainnet periphery scripts write. It finds for each asset with an alias the route between uosmo (or usdc) and the denom under which the asset was deployed, over the pool at the position of the asset among those other than uosmo, or pool 0 past the end of the list. A basket denom that is neither uosmo nor usdc nor an alias makes the contract refuse all four calls of the scripts, whatever the pools and the index answer. That the scripts can trade on every index the deployment script creates is refuted: an asset without alias is deployed under its origin but its route is written for the denom 'undefined'.", "quantifier": "all configurations, pool lists, usdc denoms and pools without commas and within u64, all states of the index and the pools, all senders and funds", "why_tests_cant": "The scripts have no tests; the claim covers every configuration, every market and every portfolio.", "anchors": ["ts/deployer/src/mainnet/6_periphery_osmo.ts: main", "ts/deployer/src/mainnet/6_periphery_usdc.ts: main", "ts/deployer/src/mainnet/4_deploy.ts: main", "contracts/periphery/src/execute.rs: mint_exact_amount_out, burn_exact_amount_in"]}
{"id": "C112", "title": "Holders are paid when everybody leaves", "statement": "The balances of the holders of the index token add up to the supply GetTotalSupply reports, and accounts whose balances add up to it are all the holders. Once the contract's balances cover what it owes, they do so until the next mint or trade, whatever else happens (burns, transfers, fee accrual and payment, governance, starting and finishing rebalances); until then every burn that is not paused, in a rebalance or worth nothing is paid. On such an index without fees all holders can leave one after the other, in any order; everyone is paid the floor of the share as of the beginning, nobody else's balance changes and the supply ends at zero. Without market trades, a gift of one base unit of each denom for every mint ever made restores the cover.", "quantifier": "all reachable indexes, all histories, all numbers and orders of holders, all baskets that do not contain the index token itself", "why_tests_cant": "It is a claim about every set of holders, every order of leaving and every history before; a test fixes a few accounts and one order.", "anchors": ["contracts/core/src/execute/token.rs: burn", "contracts/core/src/query.rs: get_total_supply", "packages/interface/src/core.rs: ExecuteMsg::Burn"]}
{"id": "C113", "title": "A funded airdrop pays everybody in its tree", "statement": "As long as an airdrop is not closed and its funding is at least the sum of the amounts in its tree, every claim of a leaf that passes the checks, and whose key was not paid before, is accepted and pays the claimant exactly the leaf's amount, whatever the others claimed before. In an open airdrop every leaf has a proof with which anybody can have it paid. (This supposes that accepted claims were for leaves of the tree, which holds unless somebody exhibits a collision of the hash.) The funding is not checked when the airdrop is registered: an airdrop that holds less pays whoever comes first and refuses the rest.", "quantifier": "all trees, all histories of the airdrop contract, all claimants and proofs, all hash functions with digests of 32 bytes", "why_tests_cant": "It is a claim about every tree and every order of claims, closings and fundings before; a test claims a few leaves in one order.", "anchors": ["contracts/airdrop/src/execute/claim.rs: claim", "contracts/airdrop/src/execute/register.rs: register", "contracts/airdrop/src/verify.rs: verify_merkle_proof"]}
{"id": "C114", "title": "Messages and questions to the chain arrive as they are meant", "statement": "The bytes of every mint, burn, denom creation and swap message, and of every estimate and pool question, that the contracts send have exactly one reading in the protocol-buffer format, and it is the intended one: the contract as sender, the same coin, the same route in the same order, the same limit. This holds for every message of every accepted call. A new index gets exactly the denom that the token factory's answer names, and the creation fails on any other reply. The coin text of an estimate is unambiguous because denoms do not begin with a digit.", "quantifier": "all messages, routes, amounts, senders and denoms, all answer bytes", "why_tests_cant": "Tests compare a few message values, not bytes; a reading for all routes, amounts and answers needs the format itself.", "anchors": ["packages/interface/src/types.rs: SwapRoutes::msg_swap_exact_in, msg_swap_exact_out, sim_swap_exact_in, sim_swap_exact_out", "contracts/core/src/contract.rs: instantiate, reply", "contracts/core/src/execute/token.rs: mint, burn", "packages/pool/src/query.rs: query_pools"]}
{"id": "C115", "title": "A pool the chain describes is the pool a quote uses", "statement": "The chain's answer to a pool question, a JSON text, is read exactly when it has the documented fields of its pool type, each once and no other, and then gives the fee, the denoms, the balances and the weights that the text names, in its order; an answer of another pool type is skipped. What the chain writes for any weighted or concentrated pool is read as that pool. A quote works on the pools under the ids it asked for. For stable pools this fails: the chain writes scaling factors as strings, which are refused, so every call or quote that mentions a stable pool fails.", "quantifier": "all answer texts, all pools, all lists of ids, all calls and quotes", "why_tests_cant": "The tests read a test file whose numbers were converted beforehand and a handful of pools; acceptance of every answer, in any spacing and order, is a statement about all texts.", "anchors": ["packages/pool/src/query.rs: decode_pool, query_pools", "packages/pool/src/weighted.rs: Pool, PoolParams, PoolAsset", "packages/pool/src/stable.rs: Pool", "packages/pool/src/concentrated.rs: Pool", "packages/pool/src/testdata/conv.js"]}
{"id": "C116", "title": "A quote asks the chain what it means and uses what it is told", "statement": "An estimate is the number in the chain's JSON answer to the question the contract sent, and no estimate is made without such an answer. If a node answers every question about a swap, however its bytes are laid out, with the estimate for the path and coin that the question means, then every estimate is the one for the path and coin at hand, and a call of the index contract has on that node exactly the effects it has with those estimates. If the node also keeps pools under ids, the pools a quote works with are exactly those kept under the ids its swap descriptions name, and every call and quote of the periphery gives on that node exactly what it gives with the estimates and pools at hand (a missing or stable pool stops it, one of another kind is skipped).", "quantifier": "all nodes, all paths and coins, all states, callers and message texts, all pools, swap descriptions, calls and quotes", "why_tests_cant": "Tests replace the querier by a table of canned estimates, so neither the bytes of the question nor the text of the answer is exercised; the claim is about every question and every answer.", "anchors": ["packages/interface/src/types.rs: sim_swap_exact_in, sim_swap_exact_out", "packages/utils/src/lib.rs: raw_query_bin", "packages/pool/src/query.rs: query_pools", "contracts/core/src/execute/rebalance/trade", "packages/pool/src/sim", "contracts/periphery/src/execute.rs", "contracts/periphery/src/query.rs"]}
{"id": "C117", "title": "From bytes to balances: the whole index contract on its chain", "statement": "Take the index contract as the chain sees it: created and called by JSON texts, its state bytes under keys, its prices JSON answers of the query service, its instructions protocol buffers that the token factory and the pool manager read and carry out. Then every history of calls, migrations, transfers and coins issued or lost has exactly one outcome; what fails changes nothing; and balances, supplies and state are those of the same history in the abstract model. So every law of all reachable worlds holds of the bytes: for instance the text stored as total supply is always the number of index tokens in existence, and no accounts together hold more.", "quantifier": "all creations, all finite histories of texts, senders, coins, block times, query services, pool behaviours, migrations and transfers (times and coins within their types, keys and routes of bounded length)", "why_tests_cant": "Tests call handlers with Rust values and inspect Rust messages; the claim spans parsing, storage, queries and the bytes of messages over whole histories.", "anchors": ["contracts/core/src/contract.rs: instantiate, execute, reply, migrate", "contracts/core/src/execute", "contracts/core/src/state", "packages/interface/src/types.rs", "packages/utils/src/lib.rs"]}
{"id": "C118", "title": "From bytes to balances: three contracts on one chain", "statement": "Take the index contract, the periphery contract and the airdrop contract on one chain as the chain sees them: called by JSON texts and by each other's JSON texts, their states bytes under keys, prices and pools JSON answers of the query service, swaps, mints and burns protocol buffers that the chain's modules read and carry out. Every course of calls, migrations and transfers has exactly one end, in which what cannot be carried out as a whole has changed nothing; each event does what the same event does in the model with structured messages, and everything that happens there happens here, except that no message of 2^64 bytes or more goes anywhere. So every law of the joint chain holds of the bytes: for instance the text stored as total supply is at all times the number of index tokens in existence, and the airdrop contract holds what its stored airdrops still owe.", "quantifier": "all creations of the three contracts, all finite courses of texts, senders, coins, block times, query services, pool behaviours, migrations and transfers (times and coins within their types, key prefixes below 65535 bytes)", "why_tests_cant": "Tests call one contract at a time with Rust values and mocked queries; the claim spans nested calls between contracts, parsing, storage, queries and message bytes over whole histories.", "anchors": ["contracts/core/src/contract.rs: execute", "contracts/periphery/src/contract.rs: execute", "contracts/periphery/src/execute.rs", "contracts/airdrop/src/contract.rs: execute", "packages/interface/src/types.rs", "packages/interface/src/helpers"]}
{"id": "C119", "title": "What holding the index costs", "statement": "Somebody mints index tokens; later somebody burns some. Whatever all users, the fee collector and governance do in between, short of rebalancing trades, the burn pays of each basket denom at most the burned tokens' share in the basket as it was at the mint (hence never more than the mint took for as many tokens), and at least what is left of that share after compound interest at the highest streaming fee in force or announced meanwhile, over the seconds between mint and burn, rounded down by less than one base unit. With no streaming fee it pays exactly that share, rounded down. Mints, burns, donations, pauses, withdrawals and fee changes by others change nothing else about what a token is worth.", "quantifier": "all reachable worlds, all accepted mints and burns, all histories in between with block times in order and no rebalancing trade, all announced fees", "why_tests_cant": "The claim quantifies over every history between the two transactions and over compounding in every possible rhythm; tests fix a few accruals.", "anchors": ["contracts/core/src/state/fee.rs: StreamingFee::collect", "contracts/core/src/execute/token.rs: mint, burn", "contracts/core/src/execute/fee.rs", "contracts/core/src/execute/gov/update.rs: update_fee", "contracts/core/src/execute/rebalance/init.rs", "contracts/core/src/execute/rebalance/finalize.rs"]}
{"id": "C120", "title": "What a rebalance costs the holders", "statement": "Whatever prices one has in mind, an accepted rebalancing trade lowers what an index token stands for (the basket units, and the reserve not yet spent) by at most what the limits in the trade message concede at these prices - max_amount_in of the sold denom for amount_out of the reserve denom, or amount_in of the reserve denom for min_amount_out of the bought denom - divided by the supply, and by rounding of fewer than 10^18 / last weight + 3 quanta of 10^-18. Nothing else anybody can do until the rebalance is finished lowers it. From the start of a rebalance to its end the basket GetPortfolio shows therefore loses at most the concessions of the accepted trades and their rounding, on top of the streaming fee due at the start; if no trade concedes anything at the prices, it loses nothing but rounding.", "quantifier": "all prices, all reachable worlds, all histories between the start and the end of a rebalance, all market estimates", "why_tests_cant": "The claim ranges over every sequence of trades and other calls, every price vector and every rounding; tests see single trades at one price.", "anchors": ["contracts/core/src/execute/rebalance/trade/deflate.rs", "contracts/core/src/execute/rebalance/trade/inflate.rs", "contracts/core/src/execute/rebalance/init.rs", "contracts/core/src/execute/rebalance/finalize.rs", "contracts/core/src/query.rs: get_portfolio"]}
{"id": "C121", "title": "What holding the index costs, rebalances included", "statement": "Somebody mints index tokens, and then anything happens, in any order: mints, burns, donations, pauses, withdrawals of fees, fee changes, whole rebalances with all their trades. At whatever prices one has in mind, what GetPortfolio shows later (with the unspent reserve of an open rebalance) is worth at least what is left of the basket at the mint after compound interest at the highest streaming fee in force or announced meanwhile, less for each accepted trade its share in what the trade's own limits concede at these prices and rounding. Whoever then burns tokens receives at least that, for each token burned net of the burn fee, less than one base unit per denom rounded off.", "quantifier": "all prices, all reachable worlds, all accepted mints and burns, all histories in between with block times in order, all announced fees, all market estimates and swap results", "why_tests_cant": "The bound covers every history of users, governance, managers and markets between the two transactions, and every price vector; tests fix a few short ones.", "anchors": ["contracts/core/src/execute/token.rs: mint, burn", "contracts/core/src/state/fee.rs: StreamingFee::collect", "contracts/core/src/execute/rebalance/trade/deflate.rs", "contracts/core/src/execute/rebalance/trade/inflate.rs", "contracts/core/src/execute/rebalance/init.rs", "contracts/core/src/execute/rebalance/finalize.rs", "contracts/core/src/execute/gov/update.rs"]}
{"id": "C122", "title": "What can happen without governance", "statement": "Whatever everybody but the governance address and its nominee sends, in any number and order, the configuration (governance, pause, denoms), the nomination, the fee collector and all fee rates, and the routes, cooldowns and limits of trades stay as they are; no rebalance starts, and an open one keeps its plan and manager until it is finished; outside a rebalance the streaming fee is neither frozen nor thawed. So without governance the index is a fixed basket: after a mint, a later burn pays of each denom at most the share in the basket at the mint and at least what is left of it after compound interest at the streaming fee in force then, rounded down.", "quantifier": "all worlds, all histories of transactions by anybody else, transfers and issues of coins; for the second part all reachable worlds, accepted mints and burns and block times in order", "why_tests_cant": "It quantifies over everything anybody else may send; tests try a few unauthorised calls.", "anchors": ["contracts/core/src/contract.rs: execute", "contracts/core/src/state/config.rs: check_gov", "contracts/core/src/execute/gov/mod.rs", "contracts/core/src/execute/rebalance/mod.rs", "contracts/core/src/execute/token.rs"]}
{"id": "C123", "title": "How fast a rebalance can trade", "statement": "As long as governance does not register a trading pair anew, then in any period of time no accepted market trade on the pair moves more of the reserve denom than the pair's limit, the number of accepted trades is at most the period divided by the pair's cooldown, plus one, and the amount they move altogether is at most that many times the limit, whoever trades, however often it is tried and whatever happens in between. A pair that was never registered is never traded.", "quantifier": "all worlds, all pairs of denoms, all periods and all histories in them of transactions, transfers and issues of coins that do not register the pair", "why_tests_cant": "It bounds a sum over histories of any length; tests check one trade after one cooldown.", "anchors": ["contracts/core/src/execute/rebalance/trade/mod.rs: trade", "contracts/core/src/state/rebalance.rs: TradeInfo::assert_cooldown, update_last_traded_at", "contracts/core/src/execute/gov/update.rs: update_trade_info"]}
{"id": "C124", "title": "Nobody gains at the expense of the other holders", "statement": "Take any group of accounts that contains neither the contract nor the fee collector and to which nobody outside gives anything, while no rebalance is open and governance does not act. Whatever the group and everybody else do - any number of mints and burns for each other, transfers, fee realisations, in any order and at any times - the group's coins of any denom, together with the share of that denom its index tokens stand for, grow by less than one smallest coin for each mint the group sends. So a group that starts without index tokens ends with at most one coin of each denom less than the number of its mints more than it had, and with no more than it had if it mints at most once; this bound is reached.", "quantifier": "all reachable worlds without an open rebalance, all groups, all denoms but the index denom itself, all histories", "why_tests_cant": "It quantifies over all strategies of any number of users; tests follow one.", "anchors": ["contracts/core/src/execute/token.rs: mint, burn", "contracts/core/src/state/units.rs", "contracts/core/src/execute/fee.rs: collect_streaming_fee, realize_streaming_fee", "contracts/core/src/state/fee.rs: StreamingFee::collect"]}
{"id": "C125", "title": "A false airdrop proof would break SHA-256 itself", "statement": "With the hash functions the airdrop contract is compiled with, every digest has 32 bytes (SHA-256) or 20 bytes (RIPEMD-160), so that everything said of airdrops for any hash function of these sizes holds. If a claim's Merkle proof is accepted for a published list, then the claim is an entry of the list, or hashing the claim and its proof and hashing the list give the compression function of SHA-256 two different inputs with one output. In the same way one signer address stands for one key and one signed digest for one claim: key, claimer and amount.", "quantifier": "all lists, all claims and proofs whose texts are shorter than 2^61 bytes and not 64 bytes long, all keys, all signed claims, all reachable airdrop contracts", "why_tests_cant": "It quantifies over all forgeries; tests try a few altered proofs.", "anchors": ["contracts/airdrop/src/verify.rs: sha256_digest, ripemd160_digest, pub_to_addr, verify_merkle_proof", "contracts/airdrop/src/execute/claim.rs: claim_bearer", "contracts/airdrop/src/execute/register.rs: register_bearer"]}
{"id": "C126", "title": "Users of the deployed bytes cannot gain or change the rules", "statement": "Take an index contract created by a text and used by anybody in any way since. If from then on neither governance nor its nominee sends anything, then whatever texts everybody else sends, and whatever coins they move, the stored configuration, nominee, fee rates and collector stay what they are and no rebalance begins. If moreover the stored bytes show no open rebalance, a group of accounts without index tokens, to which nobody outside gives anything, ends with at most one coin of each denom less than the number of mint messages it sends more than it had, and with no more than it had if it sends at most one. Messages are JSON texts, the state is the bytes in the contract's store, swaps, mints and burns are the protocol-buffer bytes the chain reads, prices come from the query service.", "quantifier": "all creations, all earlier histories, all later histories of texts, transfers, migrations and issues within the sizes of their types, all groups, all denoms but the index denom", "why_tests_cant": "It quantifies over all texts and all strategies of any number of users; tests follow one.", "anchors": ["contracts/core/src/contract.rs: instantiate, execute, migrate", "contracts/core/src/execute/token.rs: mint, burn", "contracts/core/src/execute/gov/mod.rs", "contracts/core/src/state/mod.rs"]}
{"id": "C127", "title": "Everybody can leave the deployed bytes", "statement": "Take an index contract created by a text and used by anybody in any way since. If its stored bytes show no open rebalance, no burn fee, no streaming fee and a basket that the contract's coins cover, then all who hold index tokens can leave, in any order, by sending the text {\"burn\":{}} with all they hold, whenever the stored pause does not apply: no call fails, each receives its share of each denom rounded down once, the stored supply and the supply on the chain end at zero, and nobody else's balances change.", "quantifier": "all creations, all histories within the sizes of their types, all sets of holders and orders of leaving, all times and surroundings of the calls, all denoms but the index denom", "why_tests_cant": "It is a liveness claim over all reachable stores of bytes and all orders of any number of holders.", "anchors": ["contracts/core/src/contract.rs: execute", "contracts/core/src/execute/token.rs: burn", "contracts/core/src/state/mod.rs", "packages/interface/src/core.rs: ExecuteMsg"]}
{"id": "C128", "title": "How fast the deployed bytes can trade", "statement": "Take an index contract created by a text and used by anybody in any way since, with rules for a trading pair in its store. As long as no text registers the pair anew, then whatever texts anybody sends during a period of time, no accepted market trade on the pair moves more of the reserve denom than the stored limit, the number of accepted trades is at most the period divided by the stored cooldown, plus one, and the amount they move altogether is at most that many times the limit. A pair without rules in the store is not traded. Every history has its list of trades, so this covers all histories.", "quantifier": "all creations, all earlier and later histories of texts, transfers, migrations and issues within the sizes of their types, all pairs, all periods", "why_tests_cant": "It bounds the number of trades over all histories of texts; a test tries a few trades.", "anchors": ["contracts/core/src/contract.rs: execute", "contracts/core/src/execute/rebalance/trade/mod.rs", "contracts/core/src/state/mod.rs: TRADE_INFOS"]}
{"id": "C129", "title": "What the deployed bytes pay who waits", "statement": "Take an index contract created by a text and used by anybody in any way since. A text mints tokens; then anything happens except texts of governance or its nominee; then a text burns n tokens. Of each denom the burn pays at most the share of the tokens burned, net of the stored burn fee, in the basket stored after the mint, hence at most the price of the mint if they are no more than the mint created; and at least what is left of that share after compound interest at the stored streaming rate over the seconds between the two texts, less than one coin rounded off.", "quantifier": "all creations, all earlier histories, all histories of texts of users, transfers, migrations and issues in between within the sizes of their types, all amounts and times, all denoms but the index denom", "why_tests_cant": "It bounds a payment over all histories of texts of any number of users and all elapsed times.", "anchors": ["contracts/core/src/contract.rs: execute", "contracts/core/src/execute/token.rs: mint, burn", "contracts/core/src/execute/fee.rs: collect_streaming_fee", "contracts/core/src/state/fee.rs: StreamingFee"]}
{"id": "C130", "title": "A funded airdrop pays everybody in its list, or a claim breaks SHA-256", "statement": "An airdrop registered with the Merkle root of a list, funded with at least the sum of the list and not closed, can after any history pay every entry of the list not yet paid: for open airdrops there is a proof with which anybody can have the named account paid exactly its amount, for airdrops of both kinds any claim of an entry that passes the contract's checks is paid. The only exception is a history containing a claim which, together with the list, shows two different inputs of the compression function of SHA-256 with one output. The digest is the real one, computed, not an assumption.", "quantifier": "all histories of any callers, all lists, all entries, all senders and heights, both kinds of airdrop", "why_tests_cant": "It quantifies over all histories, including those of attackers who forge proofs, and reduces their success to a break of the hash function.", "anchors": ["contracts/airdrop/src/verify.rs: verify_merkle_proof, sha256_digest", "contracts/airdrop/src/execute/claim.rs: claim", "contracts/airdrop/src/execute/register.rs: register", "contracts/airdrop/src/execute/fund.rs: fund"]}
{"id": "C131", "title": "Who may do what to an index whose messages are texts and whose state is bytes", "statement": "After any history of texts sent to an index contract whose state is stored bytes, a text that is carried out was permitted to its sender by what the stored bytes said at that moment: anybody may mint and burn, only the stored collector realises fees, only the stored nominee accepts governance, only the stored governance does governance calls and opens a rebalance, and only the stored manager (anybody if there is none) trades in an open rebalance. The stored governance never changes except by a text in which the stored nominee accepts, and whoever is stored as nominee was named by a text sent by the governance stored at that time.", "quantifier": "all instantiation texts, all histories of texts, queries, transfers, mints and burns of the bank, all senders and texts", "why_tests_cant": "It ranges over every byte sequence a caller may send and every history before it, so that no spelling of a message can slip past an authorization check.", "anchors": ["contracts/core/src/contract.rs: instantiate, execute", "contracts/core/src/execute/gov/mod.rs: handle_msg", "contracts/core/src/execute/gov/update.rs: update_gov, accept_gov, revoke_gov", "contracts/core/src/state/mod.rs"]}
{"id": "C132", "title": "On one chain of texts and bytes, a funded airdrop pays its list, or a text broke SHA-256", "statement": "Three contracts live on one chain and receive arbitrary texts. If the stored record of an airdrop has the Merkle root of a list, is funded with at least the sum of the list and is not closed, then after any history every entry for which no claim is stored can be paid: for an open airdrop there is a text with which anybody has the named account paid exactly its amount, and nothing else moves; for both kinds every text that puts the claim of an entry and passes the checks is paid. The only exception is a history in which a text sent to the contract puts a claim that, with the list, shows two different inputs of the compression function of SHA-256 with one output.", "quantifier": "all histories of texts to the three contracts, transfers, issues, burns and migrations; all lists, entries, senders and spellings of the claim", "why_tests_cant": "It quantifies over all byte sequences and all interleavings of three contracts, and over forged proofs nobody knows.", "anchors": ["contracts/airdrop/src/contract.rs: execute", "contracts/airdrop/src/execute/claim.rs: claim", "contracts/airdrop/src/verify.rs: verify_merkle_proof, sha256_digest", "contracts/airdrop/src/state.rs: load_airdrop, CLAIM_LOGS, LABELS"]}
{"id": "C133", "title": "The airdrop contract's texts and bytes: who may do what, what it does, what stays", "statement": "Three contracts live on one chain and receive arbitrary texts. A text the airdrop contract carries out was permitted by what its store said: only the stored creator funds and closes an airdrop that is not closed, and a claim is checked, new and covered by the funds left. A carried-out claim pays the claimant its amount and nobody else anything, and the store then holds the claim; closing pays the creator exactly what is left. Whatever happens afterwards, to any of the contracts, a stored airdrop keeps its kind, creator, denom, root, label and height, its funds and claims never shrink, a closed airdrop never changes, and stored claims and labels stay. Every stored claim was put by a text that was sent.", "quantifier": "all histories of texts to the three contracts, transfers, issues, burns and migrations; all senders, texts, airdrops, keys and labels", "why_tests_cant": "It ranges over every byte sequence sent, every store reachable by them and everything that may follow.", "anchors": ["contracts/airdrop/src/contract.rs: execute", "contracts/airdrop/src/execute/claim.rs: claim", "contracts/airdrop/src/execute/fund.rs: fund", "contracts/airdrop/src/execute/close.rs: close", "contracts/airdrop/src/state.rs: load_airdrop, save_label, CLAIM_LOGS, LABELS"]}
