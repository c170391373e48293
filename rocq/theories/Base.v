(** * Base: result monad, errors and bounded integer operations.

    All Rust integers are modelled as [Z]; ranges are enforced by the checked
    operations below, exactly where the Rust code checks (or panics). *)
From Coq Require Import ZArith List Bool Lia.
Import ListNotations.
Open Scope Z_scope.

(** Error values: the variants of [PoolError] (src/error.rs) that the modelled code
    can return, plus [EPanic] for a Rust panic (assert!, unwrap, primitive overflow
    with overflow-checks = true, /repo/Cargo.toml) and [EFuel] for exhausted fuel. *)
Inductive err : Type :=
| EMathOverflow | ETypeCastFailed | EPanic | EFuel
| EInvalidBaseFeeMode | EInvalidFeeScheduler | EInvalidFeeRateLimiter | EInvalidFee
| EInvalidMinBaseFee
| EExceedMaxFeeBps | EUndeterminedError | EInvalidInput | EInvalidParameters
| EInvalidTradeDirection | EInsufficientLiquidity | ENotEnoughLiquidity
| EAmountLeftIsNotZero | EAmountIsZero | EExceededSlippage | EPoolIsCompleted
| EPoolIsIncompleted | EInsufficientLiquidityForMigration | ENotPermitToDoThisAction
| ESurplusHasBeenWithdraw | ELeftoverHasBeenWithdraw | EMigrationFeeHasBeenWithdraw
| EPoolCreationFeeHasBeenClaimed | EZeroPoolCreationFee | EInsufficientPoolLamports
| EInvalidQuoteThreshold | EInvalidCurve | EInvalidTokenSupply | EInvalidMigrationOption
| EInvalidMigrationFeeOption | EInvalidCollectFeeMode | EInvalidActivationType
| EInvalidTokenType | EInvalidFeePercentage | EInvalidCreatorTradingFeePercentage
| EInvalidTokenDecimals | EInvalidPoolCreationFee | EInvalidVestingParameters
| EInvalidMigratorFeePercentage | EInvalidMigratedPoolFee | EInvalidCompoundingParameters
| EInvalidLeftoverAddress | EInvalidOwnerAccount | EInvalidAccount | EInvalidPermission
| EInvalidMigrationLockedLiquidity | EFailToValidateSingleSwapInstruction
| EFirstSwapValidationFailed | EInvalidTokenAuthorityOption | EUnauthorized
| ETokenInsufficientFunds | EInvalidQuoteMint | EMintRestrictedFromZap
| EInvalidCollectFeeModeMigrated | EInvalidLockedLiquidity | EInvalidConfigAccount
| EAccountInvariantViolation | EInvalidAdmin | EInvalidNewCreator
| EUnsupportNativeMintToken2022 | EOther.

(** Rust [Result<T>]. *)
Inductive res (A : Type) : Type :=
| Ok (a : A)
| Err (e : err).
Arguments Ok {A} a.
Arguments Err {A} e.

(** The [?] operator. *)
Definition bind {A B} (x : res A) (f : A -> res B) : res B :=
  match x with Ok a => f a | Err e => Err e end.

Notation "'do' x <- e ;; k" := (bind e (fun x => k))
  (at level 200, x pattern, e at level 100, k at level 200, right associativity).

(** [require!(b, e)]. *)
Definition require (b : bool) (e : err) : res unit := if b then Ok tt else Err e.

(** [Option::ok_or]. *)
Definition ok_or {A} (o : option A) (e : err) : res A :=
  match o with Some a => Ok a | None => Err e end.

(** Type bounds of the Rust integer types. *)
Definition U8_MAX : Z := 255.
Definition U16_MAX : Z := 65535.
Definition U32_MAX : Z := 4294967295.
Definition U64_MAX : Z := 18446744073709551615.
Definition U128_MAX : Z := 340282366920938463463374607431768211455.
Definition U256_MAX : Z :=
  115792089237316195423570985008687907853269984665640564039457584007913129639935.
Definition Q64 : Z := 18446744073709551616.                           (* 2^64 *)
Definition Q128 : Z := 340282366920938463463374607431768211456.       (* 2^128 *)
Definition Q256 : Z :=
  115792089237316195423570985008687907853269984665640564039457584007913129639936. (* 2^256 *)

Definition u8ok (x : Z) : Prop := 0 <= x <= U8_MAX.
Definition u16ok (x : Z) : Prop := 0 <= x <= U16_MAX.
Definition u32ok (x : Z) : Prop := 0 <= x <= U32_MAX.
Definition u64ok (x : Z) : Prop := 0 <= x <= U64_MAX.
Definition u128ok (x : Z) : Prop := 0 <= x <= U128_MAX.
Definition u256ok (x : Z) : Prop := 0 <= x <= U256_MAX.

(** math/safe_math.rs:7-117: [safe_*] on an unsigned type with maximum [m]. *)
Definition sadd (m a b : Z) : res Z := if a + b <=? m then Ok (a + b) else Err EMathOverflow.
Definition ssub (a b : Z) : res Z := if b <=? a then Ok (a - b) else Err EMathOverflow.
Definition smul (m a b : Z) : res Z := if a * b <=? m then Ok (a * b) else Err EMathOverflow.
Definition sdiv (a b : Z) : res Z := if b =? 0 then Err EMathOverflow else Ok (a / b).
Definition srem (a b : Z) : res Z := if b =? 0 then Err EMathOverflow else Ok (a mod b).

(** Plain [+ - *] on primitive types: overflow panics (overflow-checks = true). *)
Definition padd (m a b : Z) : res Z := if a + b <=? m then Ok (a + b) else Err EPanic.
Definition psub (a b : Z) : res Z := if b <=? a then Ok (a - b) else Err EPanic.

(** [try_into] / [safe_cast] / [from_u128] to an unsigned type with maximum [m]
    (math/safe_math.rs:119-160). *)
Definition scast (m a : Z) : res Z := if a <=? m then Ok a else Err ETypeCastFailed.

(** math/u128x128_math.rs:3-10 *)
Inductive rounding := Up | Down.

(** [div_ceil]. *)
Definition cdiv (a b : Z) : Z := (a + b - 1) / b.

(** Division with a rounding mode. *)
Definition divr (r : rounding) (a b : Z) : Z :=
  match r with Up => cdiv a b | Down => a / b end.

(** [nth] on a Rust array; out of bounds indexing panics. *)
Definition geti {A} (l : list A) (i : nat) : res A := ok_or (nth_error l i) EPanic.
