# Formal model of the Dynamic Bonding Curve program (Rocq / Coq 8.16.1)

Source modelled: `/repo/programs/dynamic-bonding-curve/src` (the on-chain program) and the three quote
functions of `/repo/dynamic-bonding-curve-sdk/src`. The properties are in `properties.jsonl`, the
theorems that settle them in `MANIFEST.json`, the model and proofs in `rocq/theories`.

## 1. Shape of the model

* All integers are `Z`. Every Rust integer operation that can fail is an explicit check (`Base.v`):
  `safe_*`/`checked_*` return `Err EMathOverflow` out of range, casts `Err ETypeCastFailed`,
  `assert!`/`unwrap`/primitive overflow (release profile: `overflow-checks = true`) `Err EPanic`.
  Plain `ruint` operators wrap modulo 2^256.
* `Result<T>` is `res T := Ok a | Err e`. `&mut self` methods return the new record. Loops over the
  curve are structural recursions over the list of points.
* One config, one pool, its two vaults, its lamports, its DAMM v1 metadata, the positions created at
  migration and the operator accounts form one `world`. Every instruction is a function
  `world -> arguments -> res world`; `exec` dispatches on the instruction, `step` leaves the world
  unchanged if it fails, `run` folds a list of instructions. Every token or lamport movement is
  appended to `w_log` with its source and destination, so "who was paid what" is observable.
* `reachable w` means: some accepted config, some pool initialised from it, any list of instructions
  by anybody with any typed arguments, at any times. The outside world may also donate tokens and
  lamports to the pool's accounts, burn base tokens it holds, and mint base tokens if it holds the mint
  authority.
* A transaction is a tree of instructions (top-level instructions and their CPI calls). `TxTree.v`
  says what each of them sees through the instructions sysvar, the stack height and the
  processed-sibling syscall. Handlers receive this as a `view`.
* Above it lies an account-level model (`AcctModel.v`): a `bank` maps addresses to accounts (mints, configs,
  pools, token accounts, migration metadata). An instruction names every account it passes; the
  model checks what the `#[derive(Accounts)]` structures and handlers check, loads a `world` from the
  accounts, runs the same handler and stores the result. Any number of configs and pools; callers may
  pass any account anywhere, also one twice; outsiders may create mints and token accounts, and transfer
  or reassign their own. C60 proves that every pool in it is a `reachable` world.
* Public keys are integers; only equality is used.

## 2. Files

| File | Content |
|---|---|
| `Base`, `MathModel`, `CurveModel`, `FeeModel`, `ConfigModel`, `PoolModel`, `TxModel`, `SystemModel`, `SdkModel`, `AcctModel`, `MigFeeModel`, `LampModel`, `EventModel`, `TokenModel`, `MetaModel`, `LayoutModel`, `NameModel` | the model; every definition cites file and lines |
| `Spec`, `SpecHist`, `TxTree`, `AcctSpec` | independent specification: the exact curve (integers scaled by 2^128 for quote, rationals for base), fee split, what is owed, reachability, sums over histories, transaction trees, balances over accounts |
| `Fixtures`, `FixturesReach` | concrete configs A-D, pools and histories, used to show that hypotheses are met |
| `Lib`, `CurveProofs`, `CurveLoops`, `Potential`, `CalcProofs`, `ConfigProofs`, `FeeProofs`, `SwapProofs`, `InvProofs`, `InvOps`, `InvReach`, `Effects`, `Frame`, `Bounds`, `Only`, `Live`, `Steps`, `Walks`, `AcctSim`, `AcctInv`, `AcctStep`, `AcctFlow` | lemmas: arithmetic, segment loops against the exact curve, the global invariant and its preservation by every instruction, frames, liveness |
| `Conform` | tests, not proofs: the model's results on the accounts recorded in `dynamic-bonding-curve-sdk/fixtures` and on the inputs of the repository's unit tests, compared with the values recorded or asserted there |
| `Prop*.v` | the theorems `Cnn_...`, an `Example` beside each showing a concrete case that meets its hypotheses, and `Print Assumptions` at the end |

## 3. Per property: what is modelled and how it is proved

| Id | Modelled | Proof | File |
|---|---|---|---|
| C01 C02 C03 C06 C07 C08 C10 C11 | the three swap computations, `apply_swap_result`, slippage checks, transfers | case analysis of the code path, floor/ceiling lemmas, induction over segments | PropSwap |
| C04 | partial fill | as above outside the rate limiter; with it, `paid <= amount` is false (`C04_limiter_overcharge_refuted`) and the excess is bounded by following the quadratic formula of the inverse fee through its rounding | PropSwap, LimInv, PropPart |
| C05 C31 C32 | fee handlers | arithmetic. `C31_any_mode`: the inverse used by partial fills and exact-output buys neither overcharges nor undercharges beyond 1/5000000 + 601 units. `C31_monotone_charge_refuted`: the charged fee, unlike the schedule, may drop by one unit when the amount grows. C32: grossing up a net amount and charging the fee reproduces the fee, up to the stated rounding | PropLimiter, PropRate, LimInv, PropPart |
| C09 C13 C16 C17 | histories | one invariant (`Inv`) by induction over instructions; potentials of the exact curve | PropLife (C09, C13), PropSafe (C16, C17) |
| C12 | histories of swaps | sum of potentials | PropLife |
| C14 | threshold price search vs buy loop | equality of two folds, rounding | PropLife |
| C15 C24 | histories | invariant on the progress field | PropLife |
| C18 C19 C20 C21 C22 C23 C48 | histories | counters equal sums over receipts (`SpecHist`) | PropFees, PropPay |
| C25 C46 | DAMM v1 metadata, creator transfer | invariant | PropLp |
| C26 C27 C28 C45 | liquidity distribution, vesting | arithmetic | PropConfig, PropVest |
| C29 C30 | fee schedules | arithmetic; error bound of the truncated power | PropSched |
| C33 C34 | volatility tracker | invariant over histories; exact update rules | PropVol |
| C35 C36 | `sqrt_u256`, `pow` | loop invariants; error bound | PropMath |
| C37 C38 C50 | config creation | inversion of the validation | PropConfig |
| C39 C40 C51 | access control, operators, burn | every payment in every history traced to a signer | PropAccess |
| C41 C42 | transaction trees | induction over the tree | PropTx |
| C43 | SDK quotes | the quote equals the on-chain result although the SDK skips the volatility update | PropSdk |
| C44 C52 | migration | floor/ceiling arithmetic, liveness of the whole handler | PropMig |
| C47 C53 | liveness of sales and purchases | existence of the result of every step | PropSell, PropBuy, PropFreeze |
| C54 C55 C56 | pairs of swaps | every trade is a walk along a list of segments with increasing cost and gain potentials (`Steps`, `Walks`); induction over the segments compares two walks; C56 for any number of parts by induction on the parts | PropTrade, PropWait, PropSplit |
| C57 | token authorities, supply | invariant over histories; supply equals minted less burned | PropToken |
| C58 | opening price of the migrated pool | two-sided bounds through each rounding; exact for concentrated pools | PropOpen |
| C59 | positions of the migrated pool | inversion of the migration instruction against a written-out share table | PropOpen |
| C60 C61 C62 C63 | accounts, addresses and the constraints of every instruction, for any number of pools (`AcctModel`) | simulation: each instruction on the accounts is an instruction of the single-pool model whose log is a suffix (`AcctSim`, `AcctInv`, `AcctStep`); sums over covering lists of accounts (`AcctFlow`) | PropAcct |
| C64 | the terms sent to DAMM v2 as bytes, the checks on the DAMM configs (`MigFeeModel`) | little-endian encoding read back field by field; arithmetic of the schedule (shared with C30) and of the volatility control; inversion of the migration | PropMigFee |
| C65 | one swap against the exact areas of `Spec` | the walks of C54 carry global potentials; each segment loses at most one unit to rounding and the last price at most one step | PropFair |
| C66 | a separate model of account lamports, owners and sizes (LampModel); called programs are arbitrary within the runtime's rules | induction over instruction lists; each step spares the accounts it has no signature for | LampModel, PropLamp |
| C67 | the events each instruction emits (EventModel), on top of the system model | per-instruction effects, then induction over histories; an indexer state is folded over the events | EventModel, PropEvent |
| C68 | the accepted quote mints, the created base mints, and both token programs with all mint extensions (TokenModel) | an invariant on extensions over all histories of token instructions; per-instruction effect on a vault | TokenModel, PropMint |
| C69 | the whole system model (SystemModel): vault balances against the record of what is owed | exact balance equation kept by every instruction, by induction over histories; a closing history composed from the liveness of each claim | PropStrand, PropUntaken, PropProduct |
| C70 | the metadata instructions byte by byte (Borsh, UTF-8, account initialization) on top of the account model (MetaModel) | round trip of the encoding for all texts; induction over histories of all instructions | MetaModel, PropMeta |
| C71 | pairs of histories of one pool | simulation: two worlds that agree on what a trade reads run every swap alike (`blend` isolates the parts a trade does not read), every other instruction preserves the agreement; a second relation shows that other instructions leave at least as much room in every checked sum | PropIndep |
| C72 | pairs of requests at two times | each fee mode's base fee falls with time; the fee bounds are carried through the walks along the curve | PropWait |
| C73 | pairs of requests of different traders | the two runs are related step by step (`both`): results equal up to the division of the protocol's share | PropEqual |
| C74 | existence of a finite road to migration | composition of C53 (completing purchase) and C52 (migration succeeds) over reachable states | PropRoad |
| C75 | zero-copy accounts as bytes (`LayoutModel`): fields in order of declaration, little-endian | typing invariant over reachable pools (every stored value fits its field), then reading back the concatenation | PropLayout |
| C76 | the protocol part recorded by both migrations | arithmetic of the nested floors (quote to liquidity to base) against the amounts of config creation; witness config for the refuted price claim | PropShare |
| C77 | quote reserve, price and surplus over histories | induction over operations: C65 per trade, frame lemma for the others; threshold is the rounded-up curve amount at the migration price | PropDrift |
| C78 | the collecting instructions of the system model | each instruction depends only on its own part of the state, pays the same in states that agree on that part, and leaves the other parts alone; induction over the list | PropOrder |
| C79 | the account-level instructions (AcctModel) against the pool model (SystemModel) | the two-way simulation of AcctSim gives acceptance on the pool side; each account check and each token movement is discharged from the listed conditions on the caller's accounts, instruction by instruction | PropHonest |
| C80 | the account-level instructions (AcctModel) | for each instruction that succeeds, its checks are inverted one by one and combined with the invariant on pool accounts (binv) | PropRight |
| C81 | the account-level instructions, initialize_pool and create_config | accounts keep their kind and only named addresses are filled (lk_ix); by induction over histories only own accounts stand at derived addresses; initialize_pool is shown total on created configs whose supply fits | PropFresh |
| C82 | exact-output swaps and the slippage limit | the exact-output loops over the curve end before the migration price when the whole tokens of the stretches left exceed the request, and only if they reach it, by induction over the curve; fee inclusion and transfers are total; the limit occurs in one test only | PropExact |
| C83 | the positions after a migration, one day later | the share of the config bounds the locked dues (C28); what a schedule still holds after a day is monotone and 1-Lipschitz in its total; the leftovers of the first position buy the second one up to two tokens' worth of liquidity, from the DAMM formulas | PropLock |
| C84 | all accounts of a base mint, over all histories of token instructions (TokenModel) | invariant: finitely many holders, non-negative balances, total = supply; without an authority the supply only shrinks | TokenModel, PropHold |
| C85 | the metadata of base tokens: the invocations of the opening, Metaplex accounts, the metadata and pointer extensions of Token-2022 (NameModel) | invariant on label and authorities over all histories; one-step theorem from any state | NameModel, PropName |
| C86 | swap in modes 0 and 1 | the two functions step by step; what the curve loops leave unspent is left at the last price | PropMode |
| C87 | all trades | areas of the curve between two prices against the squares of the prices, by induction on the curve | PropSpot |
| C88 | the fee rate of all trades | base rate by C29/C30 and the limiter window, surcharge from the stored accumulator (the references update keeps it); C34 for its decay; witness history for the refuted claim | PropCharge |
| C89 | create_config, both directions | a record of the rules in plain arithmetic; each validator is shown equivalent to its rule, all intermediate values are bounded so that no overflow check can fail, and the exponential schedule is bracketed by the exact power (C36) | PropAccept |
| C90 | all instructions on a pool, both directions | the flags and bits of the pool are shown to record exactly which instructions succeeded before (induction over histories); each rule is then equivalent to acceptance, using the solvency invariants for the positive direction; trades by cases from C47, C53, C82 and C86 | PropAllow |
| C91 | exact-input and exact-output swaps, rate limiter, dynamic fee | the fee is read off the reserves and the movements; flat rates by the monotonicity of the walk along the curve (C54); under the limiter by comparing the rounded rate with the exact progressive sum, whose slope is at most 99% | PropLarger |
| C92 | swaps in all modes | the exact amounts of the two trades are areas of the curve (C11, C65); equal areas of quote at a higher price cover less base, by comparing both with the price in between | PropFirst |
| C93 | swaps in all modes | both trades against the exact areas of the curve (C65); what the second leaves unreturned lies between two prices and is bounded by the area between them | PropRound |
| C94 | the code under the feature local (LocalModel) | the check at the last price holds by the invariant that the reserve covers the area bought so far (C05); case analysis function by function; induction over histories | PropLocal |
| C95 | swaps in all modes, all histories | the line through the end of the single trade supports the curve; the history stays above it by C11 summed over its trades (run_area), the trade itself is close to it by C65 | PropFront |
| C96 | all instructions on accounts | a footprint (accounts written, accounts read) for every instruction; nothing outside it is written, and states that agree on it give the same outcome; hence adjacent instructions with separate footprints commute, and by induction over permutations every schedule | PropParallel |
| C97 | all instructions | C18 and the once-only payments give received + waiting = earned; the relation of C71 between two pools that agree on everything trading reads, extended to sums over trades, gives equal earnings | PropEarn |
| C98 | all instructions that read the clock | a map [later] that moves every recorded time; it commutes with pool creation and with every instruction, errors included, hence with every history | PropClock |
| C99 | all instructions, creation of pools and configs | a map [rename f] on pools, instructions and payments; it commutes with every instruction, errors included, because keys are only compared and f is one to one | PropNames |
| C100 | trades | the bound on the price (C87) leaves no room for a free unit; with nothing paid the curve's areas (C11) pin price and reserves, and conservation (C01) the rest | PropFree |
| C101 | trades in histories | volume and fee of a trade read off token movements and fee counters; bounds for one trade from the rate (C05) and the split (C06), then induction over the history | PropDust |
| C102 | pairs of histories | both reserves lie within rounding of the same area under the curve (C77), which rises with the price; base by induction from C11 | PropPath |
| C103 | pairs of swaps from one state | each swap lies within rounding of a chord of the exact curve (C11, C65), and longer chords from one point have worse slopes | PropBulk |
| C104 | a purchase and a sale in any two states | each side is at best at the price shown (C11 and chords of the curve) less the lowest fee (C05), and the two inequalities multiply | PropBidAsk |
| C105 | histories of any operations | every unit that leaves the reserves goes to a trader or into fees (induction); the reserves follow the curve (C12), which lies above its tangent at the starting price; fees by C101 | PropGroup |
| C106 | histories with a marked moment | C105 for the whole history; the volume up to the moment is at least the growth of the reserve (induction), which is at least the area under the curve (C12) | PropPump |
| C107 | histories of any operations | the reserve lies within rounding of the area under the curve (C12, C77), whose slope over the square-root price is the liquidity (induction over the curve) | PropDepth |
| C49 | not applicable: the rollback of a failed instruction is done by the Solana runtime | | |

Where the code does not satisfy the natural reading of a property, a theorem with suffix `_refuted`
proves the counterexample (a concrete reachable pool), and the property text says what does hold:
`C04_limiter_overcharge_refuted`, `C31_monotone_charge_refuted`, `C38_config_without_pool_refuted`,
`C42_unlimited_nested_refuted`, `C53_open_pool_can_freeze_refuted`, `C54_rate_limiter_refuted`,
`C55_same_output_refuted`, `C56_dynamic_fee_refuted`, `C68_frozen_vault_refuted`,
`C76_price_never_raised_refuted`, `C85_zero_partner_refuted`,
`C88_quiet_trade_pays_base_refuted`, `C91_limiter_with_surcharge_refuted`.

## 4. Trusted base

* The Coq 8.16.1 kernel and its `vm_compute`. No axioms of our own. `Print Assumptions` is run for
  every theorem in `Prop*.v`; each one answers "Closed under the global context": no axiom, not even
  one of the standard library, is used. (An automatic listing of everything loaded may mention
  `Coq.ssr.ssrunder.Under_rel.*`: module parameters of the standard library that `Lia`/`Lqa` load
  and that no theorem depends on.)
* The hand translation from Rust to Gallina. Each definition cites the lines it models and says where
  it simplifies.
* The statement of the properties in `Prop*.v` and the definitions of `Spec`, `SpecHist`, `TxTree`, `AcctSpec`.

### Modelled

All arithmetic (`math/*`, `curve.rs`), all base fee modes, dynamic fee, fee split; config parameters
and their validation; creation of pools of both token types; all three swap modes and the legacy
`swap`; all claims, surplus and migration fee withdrawals, leftover, creation fee, operator management
and zap; creator transfer; locker creation; both migrations, including liquidity, positions, vesting
parameters and burn; DAMM v1 LP lock and claim; the transaction checks of rate-limited and first swaps;
the terms of the pool created by migration and the checks on the destination config; the quote SDK; the code under the feature `local`; the account constraints of all instructions on pools, configs and operators.

### Not modelled, or assumed

* Addresses derived from seeds do not collide (they are constructors of a data type). Account owners and
  discriminators are the constructors of `acct`. Lamports, owners and sizes of accounts are in LampModel (C66), which is not tied to the amounts of the other models. Not modelled: the event
  authority and system program accounts, closing token accounts. The name, symbol and URI of base tokens are in NameModel (C85), together with a restatement of the Metaplex and Token-2022 metadata instructions. Events are in EventModel (C67), without the key fields that repeat accounts of the instruction, and without those of metadata and the legacy operator.
* In the single-pool model a handler sees the accounts that the checked seeds, `has_one` and `address`
  constraints determine; that hostile accounts change nothing is C60.
* Outside TokenModel, token programs move exactly the requested amount and fail if the source lacks it; C68 proves
  this of the mints that `is_supported_quote_mint` lets through, from a restatement of the public behaviour of the
  two token programs. A frozen vault or user account is a failing instruction. The single-pool model does not track user
  balances (an instruction failing for lack of user funds is a failing instruction); the account model does.
* The LP mint of a DAMM v1 pool is created by that program at migration, so no pool uses it before.
* External programs appear by the amounts they move: DAMM v1 (LP minted is an arbitrary value), DAMM v2
  (amounts and reserves are arbitrary values subject to the guard in `migrate_v2`; for C44/C52
  they are the public DAMM v2 formulas restated in `PropMig.v`), locker, and the zap check
  (`validate_zap_out_to_treasury`, an arbitrary boolean).
* The Solana runtime: failing transactions change nothing; sysvar, stack height and sibling
  syscalls behave as in `TxTree.v`; the clock is arbitrary except where a theorem says `clock_ok`.

## 5. Testing the theorems

`seeded/LOG.jsonl` lists edits to a scratch copy of the model that imitate realistic bugs. `first_failure` is
where the build first broke; `theorems_failed` are the theorems of the broken claim that are in or
depend on that file, so that they could no longer be checked. A break at a helper lemma shows that the
proof noticed the edit, not by itself that the final statement became false; edits that only broke
an `Example` were rerun with that example removed. `failure_kind` says whether a theorem itself or a helper
lemma broke. Edits that survived led to new or stronger theorems (`theorems_tightened`), or have a `note` that
says why no claim became false. Ids that start with A are automatic edits (a dropped check, a moved boundary)
aimed at no particular claim; `rerun` is the result of the same edit against the later, stronger theorems.

`Conform.v` tests the model itself: the recorded pool and config accounts are read through the modelled
byte layout, written back to the same bytes, and the stored migration price, amounts and supply are
recomputed by the modelled constructor; the literals asserted by the repository's unit tests are
reproduced.
