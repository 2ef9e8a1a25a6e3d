# Formal model of ibcx-contracts: design

The source is CosmWasm Rust (`/repo`, read as text).  The model is written in Gallina
(Coq 8.16.1, standard library only) under `rocq/theories`.

## 1. Method

Every contract entry point becomes a small total computable function
`step : env -> info -> msg -> state -> result (state * list message)`.
A Rust `Err`, a panic, an arithmetic overflow (release profile has
`overflow-checks = true`) and an `unwrap()` on `None` all become `Err e` with
an explicit error tag; nothing is totalised to a "default" success.
A second layer (`World`) executes the emitted messages against a bank ledger, and
reverts on any failure, which is what the chain does with a transaction.
Histories are lists of transactions folded over the world; invariants are proved by
induction on that list, for every list.

* Numbers are `N` with explicit `2^64`, `2^128`, `2^256` bounds at each operation that
  checks them in Rust.  `Decimal` is its atomics (`N`, 18 decimals); multiplication and
  division floor exactly as cosmwasm-std 1.5.2 does.
* `Vec<(String, Decimal)>`, `Vec<Coin>` are lists, order preserved.
  `Map`s are association lists with sorted insertion where iteration order is observable.
* External calls (pool estimates of the Osmosis chain, sha256, secp256k1, address
  validation) are Section variables / fields of the environment, i.e. universally
  quantified oracles.  No axiom is ever added.
* Response attributes are modelled beside the handlers (`ReceiptModel.v`), with typed
  values; `RenderModel.v` turns them into the text the chain shows.  Chain events other than
  attributes are not modelled.
  An arithmetic panic inside an attribute computation is kept in the handler's model.

## 2. Files

| file | contents |
|---|---|
| `Base.v` | result monad, checked integers, `Decimal`, coins, association lists |
| `Spec.v`, `CoreSpec.v`, `InterfaceSpec.v`, `AirdropSpec.v`, `PeripherySpec.v`, `SimSpec.v`, `StreamSpec.v`, `RebalSpec.v`, `RatioSpec.v` | small independent specifications used in theorem statements |
| `Interface.v` | packages/interface, packages/utils: message types, pagination, versions |
| `CoreModel.v` | contracts/core: all of state/, execute/, contract.rs, query.rs |
| `World.v` | chain around core: bank, token factory, swaps, transactions, histories |
| `AirdropModel.v` | contracts/airdrop, its bank and its histories |
| `MathModel.v`, `PoolModel.v` | packages/math, packages/pool (weighted, stable/concentrated as the code routes them, simulator) |
| `DecodeModel.v`, `DecodeSpec.v` | packages/pool/src/query.rs: telling pool answers apart by base64 prefix |
| `StableModel.v`, `StableSpec.v` | packages/pool/src/stable.rs: the unused StableSwap curve |
| `PeripheryModel.v`, `PeripheryWorld.v` | contracts/periphery; its messages executed against core and bank |
| `ReceiptModel.v`, `ReceiptSpec.v` | response attributes of the three contracts; a reader's books |
| `RenderModel.v`, `RenderSpec.v` | attribute values as text |
| `Bech32Model.v`, `Bech32Spec.v` | contracts/airdrop/src/verify.rs pub_to_addr down to the address text (BIP 173) |
| `StoreModel.v`, `StoreSpec.v` | cw-storage-plus keys, ranges and indexes; contracts/airdrop written against the flat store |
| `StoreCore.v` | where the core contract's records lie in its store |
| `VersionModel.v`, `VersionSpec.v` | version texts and their order (semver crate), migration on texts; semver.org |
| `WireModel.v`, `WireSpec.v` | messages and queries of the three contracts as JSON texts (packages/interface/src, serde derives, serde-json-wasm, Uint128 and Decimal texts), client helpers; JSON grammar and message shapes |
| `SizeSpec.v` | numbers within the ranges of their Rust types; histories of calls given as texts |
| `AnswerModel.v`, `AnswerSpec.v` | query entry points from text to text, response types as JSON texts, the periphery contract's view of core through them; what an answer says |
| `TextModel.v`, `TextSpec.v` | the chain with texts between accounts and contracts |
| `ByteModel.v`, `ByteSpec.v` | the core contract against its store of JSON texts; when bytes hold a state |
| `DropByteModel.v`, `DropByteSpec.v` | the same for the airdrop contract |
| `JointModel.v`, `JointSpec.v` | the three contracts on one chain; each contract's side of it |
| `SdkModel.v`, `SdkSpec.v` | ts/sdk/src/contracts: the objects the client methods send, the types they promise; what each call means |
| `DeployModel.v`, `DeploySpec.v` | ts/deployer/src: what the deployment, set-up, rebalance and periphery scripts send; the index they are meant to create |
| `HolderSpec.v` | holders, backing, leaving |
| `DropPaySpec.v` | honest histories of an airdrop, unpaid keys |
| `ProtoModel.v` | protocol-buffer bytes of the Stargate messages and queries, the reply of the token factory |
| `ProtoSpec.v` | the protocol-buffer format as a relation, what the chain hears and is asked |
| `PoolJsonModel.v` | the JSON of pool answers and the pools' own ids (packages/pool/src/query.rs and the pool structs) |
| `PoolJsonSpec.v` | shapes of pool answers, what the chain writes |
| `NodeModel.v` | questions to the chain's query service and its answers as JSON (packages/interface/src/types.rs:79-116, packages/pool/src/query.rs) |
| `NodeSpec.v` | a node that serves estimates and keeps pools |
| `StackSpec.v` | the index contract on its chain with bytes at every border: what the token factory and the pool manager do with what they read, histories of texts, the same history in `World.v` |
| `WholeSpec.v` | the three contracts on one chain with bytes at every border: swaps, mints and burns of the index and the periphery contract as the chain's modules read them, prices and pools from the query service, courses of events, the same events in `JointModel.v` |
| `HoldSpec.v` | ordered block times, histories without rebalancing trades, bounds on announced streaming fees, what compound interest leaves |
| `WorthSpec.v` | worth of the basket and reserve at given prices, what the limits of a trade concede, what rounding may cost, sums over the accepted trades of a history |
| `ThroughSpec.v` | cost of a trade per index token, value gained by an account at given prices |
| `FreeSpec.v` | who governs, histories without governance, what governance laid down |
| `PaceSpec.v` | what a trade on a pair moves, and the moves of a history |
| `GroupSpec.v` | what a group holds, its stake in a denom, its mints, histories without gifts |
| `HashModel.v`, `HashSpec.v` | SHA-256 and RIPEMD-160 as verify.rs takes them from their crates; the calls of the compression function made while hashing a text |
| `GainSpec.v` | what a group holds on a chain of bytes, its mint texts, histories of texts without gifts |
| `LeaveSpec.v` | the burn text, calls that all succeed, whether the stored configuration keeps the contract closed |
| `TapeSpec.v` | what a text wants traded, histories with the list of the trades that happened |
| `KeepSpec.v` | block times of a history of texts, net tokens and streaming rate of stored fees, compound interest |
| `TrustSpec.v` | histories in which a claim, together with the list, breaks SHA-256 |
| `RightSpec.v` | who is permitted which message, by what is stored |
| `EntrySpec.v` | claims put by texts, histories of texts that break SHA-256, a payment of the bank |
| `LedgerSpec.v` | what the stored airdrops permit whom, and what one store keeps of another |
| `RepoCore.v`, `RepoAirdrop.v`, `RepoPackages.v` | the repository's own unit tests replayed on the model: all of contracts/core and contracts/airdrop, packages/math, packages/interface, packages/utils, packages/pool/src/weighted.rs; tests of the translation, not properties |
| `QuerySpec.v` | prices, change and shares as the queries should show them |
| `*Lemmas.v`, `*Proofs.v`, `Core*.v`, `Airdrop*.v`, `Periphery*.v` (other) | proofs |
| `Demo.v`, `AirdropDemo.v`, `PeripheryDemo.v` | concrete worlds used by the examples and counterexamples |
| `PropertiesCore.v`, `PropertiesAirdrop.v`, `PropertiesPeriphery.v`, `PropertiesSim.v`, `PropertiesMath.v`, `PropertiesReceipts.v`, `PropertiesStream.v`, `PropertiesRebal.v`, `PropertiesText.v`, `PropertiesStable.v`, `PropertiesQuery.v`, `PropertiesAddress.v`, `PropertiesStore.v`, `PropertiesVersion.v`, `PropertiesWire.v`, `PropertiesAnswer.v`, `PropertiesChain.v`, `PropertiesByte.v`, `PropertiesDropByte.v`, `PropertiesJoint.v`, `PropertiesSdk.v`, `PropertiesSdkAnswers.v`, `PropertiesDeploy.v`, `PropertiesScripts.v`, `PropertiesHolders.v`, `PropertiesDropPay.v`, `PropertiesProto.v`, `PropertiesPoolJson.v`, `PropertiesNode.v`, `PropertiesStack.v`, `PropertiesWhole.v`, `PropertiesHold.v` | the theorems of MANIFEST.json, each followed by `Print Assumptions` and an `Example` |

## 3. Trusted base

* Coq 8.16.1 kernel (and `vm_compute` where a witness is evaluated).
* `Print Assumptions` reports "Closed under the global context" for every theorem of
  MANIFEST.json outside `PropertiesMath.v`.  The theorems of `PropertiesMath.v` speak about
  real numbers and use the axioms of the standard library's reals, and no others:
  `ClassicalDedekindReals.sig_forall_dec`, `ClassicalDedekindReals.sig_not_dec`,
  `Classical_Prop.classic`, `FunctionalExtensionality.functional_extensionality_dep`.  `coqchk` lists
  `Coq.ssr.ssrunder.Under_rel.*`; these are fields of a module type of the standard
  library which is loaded with `Lia` and on which no theorem depends, and, with the reals, the
  sealed constants `Coq.Reals.Rdefinitions.RbaseSymbolsImpl.*` and `RinvImpl.*`, which the
  standard library defines and hides behind a module signature.
* The hand translation Rust -> Gallina, made reviewable by a file:line citation on each
  definition, and tested by replaying the repository's own unit tests on the model (`RepoCore.v`,
  `RepoAirdrop.v`, `RepoPackages.v`; real Merkle proofs, keys and addresses included).
* SHA-256 and RIPEMD-160 (`HashModel.v`) for C125, written from their standards and checked on the published test
  vectors; everywhere else they are oracles.
* Chain semantics, which are not in /repo and were written from knowledge of
  wasmd/osmosis (`World.v`, `PeripheryWorld.v`):
  * a transaction whose contract call, or any of whose messages, fails has no effect;
  * attached funds are valid coins (positive, no duplicate denom) and are debited from
    the sender first;
  * `BankMsg::Send` of an empty coin list is a no-op, of only zero coins fails, zero
    coins among positive ones are dropped; insufficient balance fails;
  * token factory mint/burn of amount 0 fails; only the contract (admin) mints/burns the
    index denom;
  * exact-in swap: debits token_in, credits some amount >= min of the last hop's
    token_out_denom; exact-out swap: debits some amount <= max of the first hop's
    token_in_denom, credits exactly token_out.  Which accounts the pools use and which
    amount within the limit they choose is universally quantified.
* Parsing and ordering of version texts by semver 1.0.21 (`VersionModel.v`), written from knowledge.
* Key layout of cw-storage-plus 1.2.0 (`StoreModel.v`), also written from knowledge: two-byte length prefixes,
  big-endian integers, exclusive bounds, the incremented prefix as upper bound, index entries as
  index text and primary key.  In `StoreModel.v` values are records; `ByteModel.v` and `DropByteModel.v` (C101-C103) keep
  them as the JSON texts that are stored, and show that nothing changes.
* Reading and writing of JSON by serde 1.0.195 and serde-json-wasm 0.5.1 and the texts of `Uint128` and `Decimal` in
  cosmwasm-std 1.5.2 (`WireModel.v`), written from knowledge: `cw_serde` types deny unknown fields, `Coin` ignores them,
  missing optional fields are `None`, a struct variant is read from an object only, all errors reject the call alike,
  numbers in messages are unsigned.  Trees are first read whole and then interpreted; the library does both at once.
* The chain's JSON of a pool (`j_weighted`, `j_stable`, `j_concentrated` in `PoolJsonSpec.v`), written after packages/pool/src/testdata/all-pools.json.
* Protocol-buffer encoding by prost 0.12.3, field numbers and type names of osmosis-std 0.22 (`ProtoModel.v`), written from knowledge;
  UTF-8 is not checked and groups are refused.
* Oracles, universally quantified: swap estimates of the chain (`e_est_in`, `e_est_out`),
  pool contents, bech32 validation (`e_valid`), sha256 and secp256k1 verification of the
  airdrop contract.  Collision resistance appears as a hypothesis of the theorem that
  needs it (a proof of membership *or* an explicit collision).
* The TypeScript client: client and message composer build the same objects, so one model serves both. Left out: fee, memo and
  funds arguments, extra members of a Coin, negative, fractional and exponent numbers; NaN and Infinity are written as null.
* The deployment scripts: number formatting from ECMA-262; the digits of a number are given (which digits the engine selects is not modelled); floating-point products are any numbers within one of the exact product.
* Not modelled: wasm memory/gas limits, the wording of a failed Merkle check in an answer (any wording is allowed), address case rules,
  IBC, chain events, the escaping of non-ASCII characters in attributes and the schema
  binaries.  The StableSwap curve in packages/pool/src/stable.rs:33-283 is dead code (every
  stable pool is answered by the chain's estimate); it is modelled apart (`StableModel.v`, C87).

## 4. Properties

"refuted" means: the ideal statement is false of the code; the theorem list then contains
the counterexample (`..._refuted`) and the strongest true statement.

| id | plan |
|---|---|
| C01 | World invariant supply(state)=bank supply of index denom, induction over histories |
| C02 | pointwise balance deltas of a successful mint vs. `mint_price` spec |
| C03 | same, index denom deltas |
| C04 | pointwise deltas of burn vs. spec; characterisation of `must_pay` |
| C05 | ledger invariant with slack computed from the history |
| C06 | refuted (unit 1.5, two mints of 1, one burn of 2); partial: see C05 |
| C07 | arithmetic on floors; combined-burn-after-split-mints refuted; single mint, any split burn proved |
| C08 | direct proof on `collect` against a spec |
| C09 | idempotence, frozen invariance, finalize resets |
| C10 | deltas of realize; authorisation |
| C11 | refuted (update_fee wipes); partial: any history without fee update |
| C12 | refuted |
| C13 | refuted with general brick theorem (Bernoulli under flooring) |
| C14-C17 | case analysis over messages, history invariants |
| C18-C21 | characterisation of successful trades; history invariants within a rebalance |
| C22 | refuted: general stuck theorem for all continuations; what trades of whole base units can bring to zero is an inductive predicate (`closable`, `RebalSpec.v`) with an exact arithmetic condition; invariance of stuck states and construction of finishing histories, including governance opening routes and swaps filled by the chain, give exact conditions at the targets, when selling into the reserve denom (`CoreFinish.v`) and when splitting market sales by weights of whole parts (`CoreSplit.v`) |
| C23 | refuted (zero weights); partial: positive weights never divide by zero; exact condition of the distribution loop against a closed description of every share (`CoreDist.v`) |
| C24 | induction on weights; exact conservation refuted |
| C25 | refuted: in every history, every emitted deflate swap starts from the reserve denom |
| C26 | refuted for multi-hop; proved for single-hop |
| C27 | history theorem with per-pair ghost trace |
| C28 | NoDup invariant |
| C29-C31 | query/execute agreement; C30 refuted + exact condition of agreement (`CoreAsk.v`) |
| C32, C33 | semver order; page-concatenation theorem over sorted maps |
| C34-C40, C46 | airdrop history invariants |
| C41, C42 | tree induction with abstract hash |
| C43 | string injectivity |
| C44, C45 | refuted + conditional agreement; every answer of VerifyClaim characterised |
| C47-C52 | periphery and simulation, oracle universally quantified |
| C53, C54 | list/string proofs |
| C55 | refuted for 1 < exp < 2; proved bounds for pow_int n >= 2 |
| C56 | pool update proofs |
| C57 | invariant of the fee record over histories |
| C58 | refuted for every reachable world with an exhausted airdrop |
| C59 | page-concatenation theorem on the airdrop's maps |
| C60 | simulation: every periphery transaction is a core history |
| C61-C64 | symbolic execution of the periphery's messages against core, bank and arbitrary fills |
| C65 | query/execute agreement; refuted where the two differ |
| C66 | equal weights and whole ratios by error analysis of the power loop; 3:2 refuted; every ratio, in both directions, against the real-valued rule with the weight the pool really prices with (`RatioSpec.v`, `PoolAccuracy.v`, `PoolRatio.v`) |
| C67, C68 | balances of the periphery after finish; refuted where rounding or the zero transfer breaks it |
| C69 | refuted + what remains true |
| C70 | acceptance characterised in both directions; hexadecimal text specified separately |
| C71 | frame theorem over the storage maps |
| C72 | binomial series remainder in the reals (`PowReal.v`), fixed-point error analysis (`PowAccuracy.v`, `PowMixed.v`); precision refuted at 0.04^0.5 |
| C73 | each governance handler as an iff with the resulting state (`CoreIff.v`) |
| C74 | init as an iff with a declarative plan condition (`plan_ok`) |
| C75 | the four trade handlers as iffs |
| C76 | instantiate as an iff |
| C77 | inductive relations of consecutive swaps over a market with function update (`SimSpec.v`); the simulator's folds are equivalent to them (`SimIff.v`) |
| C78 | each periphery message as an iff over these relations, with the exact outgoing messages (`PeripheryIff.v`) |
| C79 | each simulation query as an iff over these relations (`PeripheryIff.v`) |
| C80 | acceptance of a weighted swap as an iff on balances, weights, fee and amount; every intermediate of the power series is bounded (`PoolTotal.v`); purchases with the fit conditions explicit (`PoolOut.v`), which are discharged for fee ≤ 1/2 and weight ratio ≤ 60 |
| C81 | `ReceiptModel.v` states every handler's attributes; `ReceiptSpec.v` a reader's books and how he enters a receipt; the books agree with the contract by induction over the history (assuming no account is called "none", the placeholder the code writes for an absent manager); that the fees are not recoverable is shown by a witness (`C81_fees_unreadable`) |
| C82 | the same for the airdrop contract, from instantiation, by induction with the airdrop invariant |
| C83 | receipt of each message next to the exact balance changes of C61–C64; the mint receipt rounds the kept share down while the core rounds the fee down (to at least one), hence "or one unit less" |
| C84 | base64 encoding modelled; each constant is the encoding of a text (plus six bits for stable pools); a prefix of the encoding is a prefix of the text, block by block; the query is an iff on the chain's raw answers, with the JSON reader as parameter |
| C85 | per-update bounds from the power loop (upper: exact compound interest; lower: Bernoulli), composed over the history: 2 - xy <= (2 - x)(2 - y) for x, y >= 1 (`StreamProofs.v`) |
| C86 | `RenderModel.v` prints attribute values as Rust does (decimal numbers, `Coin` as amount and denom, the derived `Debug` of routes with its escapes); the escapes are a prefix code (a decoder inverts them), so routes can be read back; the key tells the type of every value; composed with C81 and C82 over histories.  Coins need a denom that does not begin with a digit, as a witness shows |
| C87 | the curve of stable.rs function by function (`StableModel.v`); "keeps the curve" refuted by witnesses; that balanced pools get no quote: every term is bounded by a power of the largest reserve, so the fourth root the code takes for a cube root makes its difference of two terms negative; quotes are below the reserve by its last check |
| C88 | each query as an iff against `QuerySpec.v` (prices, change, who can pay), for every reachable state; the refund's merge of funds by denom with the basket's order (`CoreAsk.v`) |
| C89 | page-concatenation theorem on the label map, composed with the split at the first slash, which the joined text inverts because every stored label contains one (`AirdropListing.v`) |
| C90 | the address encoding is modelled to the text; base32 grouping and symbols are injective; the checksum step is linear over xor, so the six appended symbols make the remainder 1 and a nonzero difference stays nonzero; invariant over histories for the stored signer (`Bech32Proofs.v`) |
| C91 | refinement: a store `holds` a state when each slot's key has the slot's value and nothing else is stored; slot keys are injective (length prefixes, fixed-width ids); each message and each history preserves `holds` with equal outcomes; the range from a prefix to its incremented upper bound is exactly the prefix's region, so pages of the store are pages of the map (`StoreLemmas.v`, `StoreProofs.v`, `StoreRange.v`, `StoreQueries.v`) |
| C92 | as C91 for the core contract's items and its map of routes, per save and removal instead of per message (`StoreCoreProofs.v`) |
| C93 | parser of the semver crate modelled to the text; accepted texts are exactly the printed versions (numbers without leading zeros are ordered by length, then text, hence uniquely printed); the crate's order as nested lexicographic orders, related to semver.org's precedence; histories by induction (`VersionProofs.v`) |
| C94 | the reader and the writer are functions on texts; the reader accepts exactly the texts of a JSON grammar with the tree the grammar gives (soundness by induction on fuel, completeness by mutual induction on the grammar); the writer's text is in the grammar (`WireText.v`); numbers likewise (`WireValues.v`) |
| C95 | each message type has a decoder and an encoder; decoder = inductive shape over JSON trees (`WireMsgs.v`), encoder yields the shape (`WireTrip.v`), shapes are stable under reordering and bound their numbers (`WireOrder.v`) |
| C96 | round trip of C95 for the helpers' calls; the shapes of different contracts exclude each other, hence the periphery client's calls are all refused |
| C97 | exact outcome of the delegated swaps; simulations of C77 with pools that stay put reduce to independent quotes, by induction over routes and baskets up to pointwise equality of markets (`SimQuote.v`) |
| C98 | invariant by induction over the list of texts: a received message fits (C95), every handler keeps `core_fits`/`drops_fit` (`SizeProofs.v`) |
| C99 | readers and writers of each response type related to its shape as in C95; query results fit by C98, hence replies state the computed value, read back as it, and the periphery's view through texts equals the direct one (`AnswerProofs.v`) |
| C100 | simulation of the text chain by the message chain: what the periphery sends fits and reads back (C95, C96), its view is the direct one (C99), ranges persist (C98); induction over histories (`TextProofs.v`) |
| C101 | the contract rewritten load by load and save by save on a store of texts (`ByteModel.v`), simulated by CoreModel.v: loads by C92's slots and the round trips of C95/C99, saves by C92, shared computations step in lockstep (`ByteProofs.v`) |
| C102 | invariant over histories: bytes hold the state, numbers fit (C98), the reserve denom is short, routes are sorted; then C101 for the next call and record-wise for queries |
| C103 | the airdrop contract rewritten to read and write JSON texts under the library's keys (`DropByteModel.v`); step-by-step agreement with `AirdropModel.v`, invariant over histories as C102 |
| C104 | one chain with three contracts on bytes (`JointModel.v`); forward and backward simulation of each contract's side by C102/C103, and every step of one contract seen as transfers by the other, so each side stays `reachable` / `areachable` |
| C105 | the client's object literals with undefined, null and non-finite numbers (`SdkModel.v`), JSON.stringify as a partial function to JSON trees; each reader of the contracts shown to accept exactly the message the call names, then C94 for the text |
| C106 | the declared response types as terms of a small type language (`ts_type`), `conforms` says which JSON trees have a type; every shape an answer can state (C99) has the declared type |
| C107 | Number::toString of ECMA-262 as a function of the digits and the position of the point; the objects the scripts build as SDK calls (C105); accept-iff with the exact index created. Refuted: small units are written in exponent notation |
| C108 | a script as a list of SDK calls sent one after the other, interleaved with the messages of others (`scripted`); invariant over its runs: no trade of the reserve for the bought denom. Refuted: the script finishes |
| C109 | the two calls as SDK calls; funds as any coins less than one base unit below the exact product (`covers`, which stands for the floating-point computation); mint effect and burn acceptance (C02, C04) composed |
| C110 | set-up report as a function (`includes` = substring search); composed with the testnet deployment of C107 under `clear_aliases`; refuted otherwise by a pair of aliases |
| C111 | the scripts' route texts as SDK values, read by the parser of C54 (`leads`); every accepted mint or burn needs a route for each basket denom, so an unnamed denom is refused; refuted for configurations without aliases |
| C112 | invariant over all events: a finite list of holders whose balances add up to the supply; backing preserved by the inequality of C05 with zero allowance; induction over the list of leaving holders with the exact effect of a burn (C04) |
| C113 | the paid claims of an honest history are distinct leaves of the tree (invariant of the claim log), so their sum plus one more leaf is at most the sum of the tree; acceptance and effect from C34/C35, proofs from C42, honesty from C41; the ideal without the funding hypothesis is refuted by an airdrop registered with too little |
| C114 | format as an inductive relation; reader equal to it (so one reading); the encoders' items by concatenation, last-occurrence semantics computed; ranges from C98; reply composed with instantiation |
| C115 | decoders of the three pool types equal to shapes over JSON trees (as C95); the chain's writing of a pool has the shape (weighted, concentrated); for stable pools it never has, since 64-bit numbers are written as strings; the map by own ids equals the query of `PoolModel.v` for ids in order (as `extract_pool_ids` gives them) |
| C116 | composition of C114 and C115: a question's bytes have one meaning, so a node that answers by meaning answers with the estimate for the route and coin at hand; the answer's one field is read exactly (as C95); the sizes of questions are bounded, so every trade of an ordinary state can be asked about; calls of the index agree since only `trade` asks; in the simulator every amount asked about has been checked against 2^128 and every denom comes from the basket or a swap description, so calls and quotes agree by congruence over folds and the search loop |
| C117 | composition of C101, C114 and C116 with the chain of `World.v`: a state invariant bounds the index and reserve denoms and the stored routes, so every message is short enough to be transmitted; its bytes then tell one command, and that command does to the balances what `World.v` does with the message; by induction over histories the bytes follow a reachable world. The query service may answer anything |
| C118 | C117's borders added to C104's chain: simulation between the events of `WholeSpec.v` and those of `JointModel.v`. The amounts in the periphery's messages fit their types because all were read from texts or balances; the nested calls of the index contract only mint and burn, so what its pools would answer does not matter; the converse needs that messages stay below 2^64 bytes, and gives the end of every course as a computed value |
| C119 | invariant over all histories without rebalancing trades (rebalances may start and be finished, fees may be replaced): the charged seconds fit between the mint and now, and the units keep at least 2 - (1 + rate)^T of their value; combined with the exact effects of the mint (C02) and the burn (C04). With no streaming fee the payment is exact |
| C120 | every trade's effect on units and reserve is bounded by its limits (floors of both ratios, loss of the distribution by C24), all other messages in a rebalance leave both alone (C17); sum over all histories without a finalize; start and end keep the worth |
| C121 | the invariant of C119 for the worth at given prices instead of single units, with the losses of C120 added up; the compound bound is shown to survive additive losses and gains; the payout of a burn summed over the basket |
| C122 | messages accepted from others are public ones (C16), each of which keeps what governance laid down; induction over histories; rejected events are removed from a history before C119 is applied |
| C123 | induction over histories with the earliest time of the next trade as potential: every trade puts it off by the cooldown |
| C124 | the stake of a group as potential: transfers within or out of the group, burns (floor) and accruals never raise it, a mint (floor, at least one) by less than one coin; induction over histories |
| C125 | digests in Gallina; equal digests of equally long texts: parallel induction over the blocks, of texts of different lengths: the last blocks differ in the length; padding and block splitting are injective; then C41, C43 and C90 |
| C126 | continuation of the refinement of C117 from any point of a history; the stored texts read back to the state (C101); then C122 and C124 |
| C127 | the burns of C112 carried out one by one on the bytes (C117); pools play no part in a burn |
| C128 | a history's list of trades is the abstract history's (C117), by induction; then C123 |
| C129 | both calls and the history between them are the abstract ones (C117); then C122 |
| C130 | induction over the history: each accepted proof is of an entry or breaks SHA-256 (C125); then C113 |
| C131 | simulation of the bytes by the model (C117), then the authorization and governance theorems of the model |
| C132 | induction over the chain's events, keeping the claims the airdrop contract heard; then C130 on its side of the chain |
| C133 | the chain's events as a history of the airdrop contract (C104, C132), whose theorems are read off the stored bytes (C103) |

Nothing in the list is inexpressible; what is left outside the model is in section 3.

## 5. Findings: where the code disagrees with what a user would expect

Core
* Minting floors each asset's price (with a minimum of one base unit), burning floors the payout of the sum: two mints of
  one token at unit 1.5 pay 1+1 and redeem 3 (C06, C07).  The shortfall is at most one
  base unit per mint and denom (C05).
* `UpdateFeeStrategy` replaces the stream record and drops the collected, unrealized
  claims (C11); `Finalize` clears the freeze flag although governance had set it (C12).
* The stream rate is compounded per second; after a long idle period `pow` overflows or
  exceeds one and each operation that accrues fails, for ever (C13).  The elapsed time is
  cast to 32 bits, so the accrual is not monotone in time (C31).
* A rebalance can get stuck for ever: a gap worth less than one base unit cannot be
  traded away, reserve dust cannot be spent, and there is no operation that cancels a
  rebalance (C22).  A last weight of zero makes every sale fail (C23).
* A non-reserve `Deflate` uses the stored route entries, whose denoms are outputs, as the
  inputs of an exact-out swap: no token of the deflated denom ever moves, although its
  unit is reduced (C25).  For multi-hop routes the denom that must match is not that of
  the last hop, so `Inflate` may buy another token than the target (C26).
* `SimulateMint` ignores the minimum fee and the minimum price of one (C30).

* Versions that differ only in build metadata can be migrated to each other in one direction, although semver.org gives them
  the same precedence (C93).
* Amounts and decimals are read with a leading plus sign and leading zeros, also behind the point: `"1.+5"` is 1.05 (C94).

Airdrop
* The listing by id is named `by_i_d` on the wire (`ByID` in snake case); `by_id` is refused (C95).
* The signed text of a bearer claim omits the airdrop, so one signature works for every
  open airdrop with the same root and signer (C44).
* `VerifyProof` checks the account instead of the claim hash for bearer airdrops and
  panics without account (C45).
* Closing an exhausted airdrop sends zero coins, which the bank rejects (C58).
* Registering an airdrop does not ask for the sum of its tree: with less, the last claimants are refused (C113).

Periphery, pools, math
* Simulated swaps through stable and concentrated pools do not move the pool, so several swaps of one simulation through
  the same pool are each quoted at its untouched price: the quote is too good (C97).
* The client helper `IbcPeriphery` (packages/interface/src/helpers/periphery.rs:4) takes core's `ExecuteMsg`; every call it
  builds is refused by the periphery contract (C96).
* `min_output_amount` of MintExactAmountIn is compared before the mint fee (C62); per-route
  minima are floored (C63); BurnExactAmountOut accepts results up to 5000 base units, and
  more by rounding, below the desired amount (C64).
* The mint simulation queries apply the fee in the wrong direction (C65).
* The exact-output burn query lists the basket of the gross burn amount although the fee
  is deducted before the basket is released (C65).
* `pow` drops the integer part of the exponent when it equals one, so a pool with weight
  ratio 3:2 is priced wrongly (C55, C66).
* A swap of a denom against itself inflates the simulated pool (C69).
* `FinishOperation` sends the whole balance, so tokens left behind go to the next caller;
  with nothing left over the zero transfer fails the whole operation (C67, C68).
* The StableSwap formula takes fourth roots for cube roots (stable.rs:113, 149-151): it rejects every trade with pools of
  ordinary size and does not keep the curve on tiny ones; it also quotes denoms the pool does not hold (C87; dead code).
* A compact route without a comma is parsed with id and denom from the same text (C54).
* The deployment scripts write units below 10^-6 in exponent notation (`5e-7`), which the contract refuses (C107).
* The testnet rebalance script registers only trades into the reserve; its purchase is always refused and the index stays in the rebalance (C108).
* The testnet set-up report looks an alias up as a part of the created denoms: an alias that is part of an earlier created denom gets the wrong denom (C110).
* The mainnet periphery scripts write routes for the alias only; an asset without alias gets the denom `undefined` there and none of the scripts' calls is accepted (C111).
* `scaling_factors` of a stable pool is read as numbers (stable.rs:21), but the chain writes 64-bit numbers as strings (packages/pool/src/testdata/all-pools.json; testdata/conv.js rewrites them for the tests): no stable pool is read, and every call or quote of the periphery whose swap descriptions mention one fails (C115).
