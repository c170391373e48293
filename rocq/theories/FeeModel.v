(** * Model of src/base_fee/*, src/state/fee.rs and the fee part of src/state/config.rs *)
From Coq Require Import ZArith List Bool.
From Verif Require Import Base MathModel.
Open Scope Z_scope.

(** constants.rs: fee constants. *)
Definition FEE_DENOMINATOR : Z := 1000000000.
Definition MAX_FEE_NUMERATOR : Z := 990000000.
Definition MIN_FEE_NUMERATOR : Z := 2500000.
Definition PROTOCOL_FEE_PERCENT : Z := 20.
Definition HOST_FEE_PERCENT : Z := 20.
Definition MAX_RATE_LIMITER_DURATION_IN_SECONDS : Z := 43200.
Definition MAX_RATE_LIMITER_DURATION_IN_SLOTS : Z := 108000.

(** params/swap.rs:6-11 *)
Inductive direction := BaseToQuote | QuoteToBase.

(** utils/activation_handler.rs:20-23 *)
Inductive activation_type := ActSlot | ActTimestamp.
Definition activation_of (x : Z) : res activation_type :=
  if x =? 0 then Ok ActSlot else if x =? 1 then Ok ActTimestamp
  else Err EInvalidActivationType.

(** state/config.rs: CollectFeeMode (QuoteToken = 0, OutputToken = 1). *)
Inductive collect_mode := QuoteToken | OutputToken.
Definition collect_of (x : Z) : res collect_mode :=
  if x =? 0 then Ok QuoteToken else if x =? 1 then Ok OutputToken
  else Err EInvalidCollectFeeMode.

(** params/fee_parameters.rs:168-174 *)
Definition validate_fee_fraction (num den : Z) : res unit :=
  if (den =? 0) || (den <=? num) then Err EInvalidFee else Ok tt.

(** params/fee_parameters.rs:177-182 *)
Definition to_bps (num den : Z) : res Z :=
  do a <- smul U128_MAX num MAX_BASIS_POINT ;;
  do b <- sdiv a den ;;
  scast U64_MAX b.

(** params/fee_parameters.rs:184-189 *)
Definition to_numerator (bps den : Z) : res Z :=
  do a <- smul U128_MAX bps den ;;
  do b <- sdiv a MAX_BASIS_POINT ;;
  scast U64_MAX b.

(** state/config.rs:225-236 [BaseFeeConfig] (same fields as params/fee_parameters.rs:21-27). *)
Record base_fee := mkBaseFee {
  bf_cliff : Z;   (* cliff_fee_numerator : u64 *)
  bf_first : Z;   (* first_factor : u16  - number_of_period / fee_increment_bps *)
  bf_second : Z;  (* second_factor : u64 - period_frequency / max_limiter_duration *)
  bf_third : Z;   (* third_factor : u64  - reduction_factor / reference_amount *)
  bf_mode : Z     (* base_fee_mode : u8 *)
}.

(** ** Fee amount helpers: state/config.rs:172-217 *)

(** state/config.rs:172-185 [get_excluded_fee_amount]: returns (excluded, fee). *)
Definition get_excluded_fee_amount (num incl : Z) : res (Z * Z) :=
  do fee <- safe_mul_div_cast_u64 U64_MAX incl num FEE_DENOMINATOR Up ;;
  do excl <- ssub incl fee ;;
  Ok (excl, fee).

(** state/config.rs:187-199 [get_included_fee_amount]: returns (included, fee). *)
Definition get_included_fee_amount (num excl : Z) : res (Z * Z) :=
  do d <- ssub FEE_DENOMINATOR num ;;
  do incl <- safe_mul_div_cast_u64 U64_MAX excl FEE_DENOMINATOR d Up ;;
  do fee <- ssub incl excl ;;
  Ok (incl, fee).

(** state/config.rs:201-217 [split_fees]: returns (trading, protocol, referral). *)
Definition split_fees (fee : Z) (has_referral : bool) : res (Z * Z * Z) :=
  do p <- safe_mul_div_cast_u64 U64_MAX fee PROTOCOL_FEE_PERCENT 100 Down ;;
  do t <- ssub fee p ;;
  do r <- (if has_referral then safe_mul_div_cast_u64 U64_MAX p HOST_FEE_PERCENT 100 Down
           else Ok 0) ;;
  do p' <- ssub p r ;;
  Ok (t, p', r).

(** state/fee.rs:17-22 *)
Record fee_on_amount := mkFoA {
  foa_amount : Z; foa_trading : Z; foa_protocol : Z; foa_referral : Z }.

(** state/config.rs:137-170 [get_fee_on_amount]. *)
Definition get_fee_on_amount (num amount : Z) (has_referral : bool) : res fee_on_amount :=
  do ef <- get_excluded_fee_amount num amount ;;
  let '(excl, fee) := ef in
  do p <- safe_mul_div_cast_u64 U64_MAX fee PROTOCOL_FEE_PERCENT 100 Down ;;
  do t <- ssub fee p ;;
  do r <- (if has_referral then safe_mul_div_cast_u64 U64_MAX p HOST_FEE_PERCENT 100 Down
           else Ok 0) ;;
  do p' <- ssub p r ;;
  Ok (mkFoA excl t p' r).

(** ** Fee scheduler: base_fee/fee_scheduler.rs
    (number_of_period = bf_first, period_frequency = bf_second, reduction_factor = bf_third) *)

(** base_fee/fee_scheduler.rs:42-62 *)
Definition sched_by_period (b : base_fee) (period : Z) : res Z :=
  let period := Z.min period (bf_first b) in
  if bf_mode b =? 0 then
    do m <- smul U64_MAX (bf_third b) period ;;
    ssub (bf_cliff b) m
  else if bf_mode b =? 1 then
    do period <- (if period <=? U16_MAX then Ok period else Err EMathOverflow) ;;
    get_fee_in_period (bf_cliff b) (bf_third b) period
  else Err ETypeCastFailed.

(** base_fee/fee_scheduler.rs:38-40, 127-129 *)
Definition sched_min (b : base_fee) : res Z := sched_by_period b (bf_first b).

(** base_fee/fee_scheduler.rs:64-74 *)
Definition sched_numerator (b : base_fee) (current activation : Z) : res Z :=
  if bf_second b =? 0 then Ok (bf_cliff b)
  else
    do e <- ssub current activation ;;
    do period <- sdiv e (bf_second b) ;;
    sched_by_period b period.

(** base_fee/fee_scheduler.rs:78-96 *)
Definition sched_validate (b : base_fee) : res unit :=
  do _ <- (if negb (bf_second b =? 0) || negb (bf_first b =? 0) || negb (bf_third b =? 0)
           then require (negb (bf_first b =? 0) && negb (bf_second b =? 0)
                         && negb (bf_third b =? 0)) EInvalidFeeScheduler
           else Ok tt) ;;
  do mn <- sched_min b ;;
  do _ <- validate_fee_fraction mn FEE_DENOMINATOR ;;
  do _ <- validate_fee_fraction (bf_cliff b) FEE_DENOMINATOR ;;
  require ((MIN_FEE_NUMERATOR <=? mn) && (bf_cliff b <=? MAX_FEE_NUMERATOR))
          EExceedMaxFeeBps.

(** ** Rate limiter: base_fee/fee_rate_limiter.rs
    (fee_increment_bps = bf_first, max_limiter_duration = bf_second, reference_amount = bf_third).
    All U256 values below are products of a few u64 values and cannot reach 2^256; the only
    plain U256 operations that can wrap are the subtractions, modelled with [w256]. *)
Definition w256 (x : Z) : Z := x mod Q256.

(** base_fee/fee_rate_limiter.rs:65-67 *)
Definition rl_is_zero (b : base_fee) : bool :=
  (bf_third b =? 0) && (bf_second b =? 0) && (bf_first b =? 0).

(** base_fee/fee_rate_limiter.rs:69-71 *)
Definition rl_is_non_zero (b : base_fee) : bool :=
  negb (bf_third b =? 0) && negb (bf_second b =? 0) && negb (bf_first b =? 0).

(** base_fee/fee_rate_limiter.rs:42-63. The u128 sum of two u64 cannot overflow. *)
Definition rl_applied (b : base_fee) (current activation : Z) (d : direction) : res bool :=
  if rl_is_zero b then Ok false
  else match d with
       | BaseToQuote => Ok false
       | QuoteToBase =>
         do last <- sadd U128_MAX activation (bf_second b) ;;
         Ok (negb (last <? current))
       end.

(** base_fee/fee_rate_limiter.rs:73-79 *)
Definition rl_max_index (b : base_fee) : res Z :=
  do delta <- ssub MAX_FEE_NUMERATOR (bf_cliff b) ;;
  do inc <- to_numerator (bf_first b) FEE_DENOMINATOR ;;
  sdiv delta inc.

(** base_fee/fee_rate_limiter.rs:230-281. [div_rem] by zero panics. *)
Definition rl_num_included (b : base_fee) (input : Z) : res Z :=
  if input <=? bf_third b then Ok (bf_cliff b)
  else
    let c := bf_cliff b in
    let x0 := bf_third b in
    do rest <- ssub input x0 ;;
    do _ <- require (negb (x0 =? 0)) EPanic ;;
    let a := rest / x0 in
    let r := rest mod x0 in
    do m <- rl_max_index b ;;
    do i <- to_numerator (bf_first b) FEE_DENOMINATOR ;;
    let fee_num :=
      if a <? m then
        x0 * (c + c * a + i * a * (a + 1) / 2) + r * (c + i * (a + 1))
      else
        x0 * (c + c * m + i * m * (m + 1) / 2) + ((a - m) * x0 + r) * MAX_FEE_NUMERATOR in
    do fee <- scast U64_MAX ((fee_num + FEE_DENOMINATOR - 1) / FEE_DENOMINATOR) ;;
    safe_mul_div_cast_u64 U64_MAX fee FEE_DENOMINATOR input Up.

(** base_fee/fee_rate_limiter.rs:223-228 *)
Definition rl_excluded (b : base_fee) (incl : Z) : res Z :=
  do num <- rl_num_included b incl ;;
  do ef <- get_excluded_fee_amount num incl ;;
  Ok (fst ef).

(** base_fee/fee_rate_limiter.rs:85-101: returns (excluded, included, is_overflow). *)
Definition rl_checked_amounts (b : base_fee) : res (Z * Z * bool) :=
  do m <- rl_max_index b ;;
  let top := (m + 1) * bf_third b in
  if top <=? U64_MAX then
    do out <- rl_excluded b top ;;
    Ok (out, top, false)
  else
    do out <- rl_excluded b U64_MAX ;;
    Ok (out, U64_MAX, true).

(** base_fee/fee_rate_limiter.rs:112-221 *)
Definition rl_num_excluded (b : base_fee) (ex : Z) : res Z :=
  do ex_ref <- rl_excluded b (bf_third b) ;;
  if ex <=? ex_ref then Ok (bf_cliff b)
  else
    do chk <- rl_checked_amounts b ;;
    let '(chk_ex, chk_in, overflow) := chk in
    if ex =? chk_ex then rl_num_included b chk_in
    else
      do incl <-
        (if ex <? chk_ex then
           do i <- to_numerator (bf_first b) FEE_DENOMINATOR ;;
           let x0 := bf_third b in
           let c := bf_cliff b in
           let y := w256 (2 * FEE_DENOMINATOR * x0 + i * x0 - 2 * c * x0) in
           let z := 2 * ex * FEE_DENOMINATOR * x0 in
           do s <- ok_or (sqrt_u256 (w256 (y * y - 4 * i * z))) EMathOverflow ;;
           do _ <- require (negb (i =? 0)) EPanic ;;
           let in1 := w256 (y - s) / (2 * i) in
           do a1 <- sdiv in1 x0 ;;
           do in1 <- scast U64_MAX in1 ;;
           do ex1 <- rl_excluded b in1 ;;
           do rem <- ssub ex ex1 ;;
           do num <- scast U64_MAX (c + i * a1) ;;
           do ir <- get_included_fee_amount num rem ;;
           scast U64_MAX (in1 + fst ir)
         else
           do _ <- require (negb overflow) EMathOverflow ;;
           do rem <- ssub ex chk_ex ;;
           do ir <- get_included_fee_amount MAX_FEE_NUMERATOR rem ;;
           sadd U64_MAX (fst ir) chk_in) ;;
      do fee <- ssub incl ex ;;
      do num <- safe_mul_div_cast_u64 U64_MAX fee FEE_DENOMINATOR incl Up ;;
      do _ <- require (bf_cliff b <=? num) EUndeterminedError ;;
      Ok num.

(** base_fee/fee_rate_limiter.rs:285-333 *)
Definition rl_validate (b : base_fee) (collect : Z) (act : activation_type) : res unit :=
  do cm <- collect_of collect ;;
  do _ <- require (match cm with QuoteToken => true | OutputToken => false end)
                  EInvalidFeeRateLimiter ;;
  do _ <- require ((MIN_FEE_NUMERATOR <=? bf_cliff b) && (bf_cliff b <=? MAX_FEE_NUMERATOR))
                  EInvalidFeeRateLimiter ;;
  if rl_is_zero b then Ok tt
  else
    do _ <- require (rl_is_non_zero b) EInvalidFeeRateLimiter ;;
    let maxd := match act with
                | ActSlot => MAX_RATE_LIMITER_DURATION_IN_SLOTS
                | ActTimestamp => MAX_RATE_LIMITER_DURATION_IN_SECONDS
                end in
    do _ <- require (bf_second b <=? maxd) EInvalidFeeRateLimiter ;;
    do inc <- to_numerator (bf_first b) FEE_DENOMINATOR ;;
    do _ <- require (inc <? FEE_DENOMINATOR) EInvalidFeeRateLimiter ;;
    do mn <- rl_num_included b 0 ;;
    do mx <- rl_num_included b U64_MAX ;;
    require ((MIN_FEE_NUMERATOR <=? mn) && (mx <=? MAX_FEE_NUMERATOR)) EInvalidFeeRateLimiter.

(** ** Dispatch on the base fee mode: base_fee/mod.rs:33-63 (0 linear, 1 exponential,
    2 rate limiter). *)

(** [validate], params/fee_parameters.rs:30-40 *)
Definition base_fee_validate (b : base_fee) (collect : Z) (act : activation_type) : res unit :=
  if (bf_mode b =? 0) || (bf_mode b =? 1) then sched_validate b
  else if bf_mode b =? 2 then rl_validate b collect act
  else Err EInvalidBaseFeeMode.

(** [get_base_fee_numerator_from_included_fee_amount]:
    fee_scheduler.rs:97-105, fee_rate_limiter.rs:335-347 *)
Definition base_num_included (b : base_fee) (current activation : Z) (d : direction)
    (amount : Z) : res Z :=
  if (bf_mode b =? 0) || (bf_mode b =? 1) then sched_numerator b current activation
  else if bf_mode b =? 2 then
    do ap <- rl_applied b current activation d ;;
    if ap then rl_num_included b amount else Ok (bf_cliff b)
  else Err EInvalidBaseFeeMode.

(** [get_base_fee_numerator_from_excluded_fee_amount]:
    fee_scheduler.rs:107-115, fee_rate_limiter.rs:349-361 *)
Definition base_num_excluded (b : base_fee) (current activation : Z) (d : direction)
    (amount : Z) : res Z :=
  if (bf_mode b =? 0) || (bf_mode b =? 1) then sched_numerator b current activation
  else if bf_mode b =? 2 then
    do ap <- rl_applied b current activation d ;;
    if ap then rl_num_excluded b amount else Ok (bf_cliff b)
  else Err EInvalidBaseFeeMode.

(** [get_min_base_fee_numerator]: fee_scheduler.rs:127-129, fee_rate_limiter.rs:371-373,
    state/config.rs:219-222 *)
Definition min_base_fee_numerator (b : base_fee) : res Z :=
  if (bf_mode b =? 0) || (bf_mode b =? 1) then sched_min b
  else if bf_mode b =? 2 then Ok (bf_cliff b)
  else Err EInvalidBaseFeeMode.

(** [validate_min_base_fee]: fee_scheduler.rs:117-125, fee_rate_limiter.rs:363-369,
    state/config.rs:277-282 *)
Definition validate_min_base_fee (b : base_fee) : res unit :=
  do mn <- min_base_fee_numerator b ;;
  require (MIN_FEE_NUMERATOR <=? mn) EInvalidMinBaseFee.

(** ** Dynamic fee: state/config.rs:285-330 *)
Record dynamic_fee := mkDynFee {
  df_initialized : Z;      (* u8 *)
  df_max_va : Z;           (* max_volatility_accumulator : u32 *)
  df_vfc : Z;              (* variable_fee_control : u32 *)
  df_bin_step : Z;         (* u16 *)
  df_filter : Z;           (* filter_period : u16 *)
  df_decay : Z;            (* decay_period : u16 *)
  df_reduction : Z;        (* reduction_factor : u16 *)
  df_bin_step_u128 : Z     (* u128 *)
}.

(** state/fee.rs:26-32 [VolatilityTracker]. *)
Record tracker := mkTracker {
  vt_last : Z;        (* last_update_timestamp : u64 *)
  vt_price_ref : Z;   (* sqrt_price_reference : u128 *)
  vt_va : Z;          (* volatility_accumulator : u128 *)
  vt_vref : Z         (* volatility_reference : u128 *)
}.

(** state/config.rs:303-305 *)
Definition dyn_enabled (df : dynamic_fee) : bool := negb (df_initialized df =? 0).

(** state/config.rs:307-329 *)
Definition variable_fee_numerator (df : dynamic_fee) (vt : tracker) : res Z :=
  if negb (dyn_enabled df) then Ok 0
  else
    do m <- smul U128_MAX (vt_va vt) (df_bin_step df) ;;
    do sq <- smul U128_MAX m m ;;
    do v <- smul U128_MAX sq (df_vfc df) ;;
    do s <- sadd U128_MAX v 99999999999 ;;
    sdiv s 100000000000.

(** constants.rs dynamic_fee: *)
Definition BIN_STEP_BPS_DEFAULT : Z := 1.
Definition BIN_STEP_BPS_U128_DEFAULT : Z := 1844674407370955.
Definition U24_MAX : Z := 16777215.

(** params/fee_parameters.rs:111-145 [DynamicFeeParameters::validate]. *)
Definition dyn_validate (df : dynamic_fee) : res unit :=
  do _ <- require (df_bin_step df =? BIN_STEP_BPS_DEFAULT) EInvalidInput ;;
  do _ <- require (df_bin_step_u128 df =? BIN_STEP_BPS_U128_DEFAULT) EInvalidInput ;;
  do _ <- require (df_filter df <? df_decay df) EInvalidInput ;;
  do _ <- require (df_reduction df <=? MAX_BASIS_POINT) EInvalidInput ;;
  do _ <- require (df_vfc df <=? U24_MAX) EInvalidInput ;;
  require (df_max_va df <=? U24_MAX) EInvalidInput.

(** state/fee.rs:39-56 [get_delta_bin_id]. *)
Definition delta_bin_id (bin_step_u128 pa pb : Z) : res Z :=
  let '(up, low) := if pb <? pa then (pa, pb) else (pb, pa) in
  do ratio <- safe_shl_div_cast U128_MAX up low 64 Down ;;
  do d <- ssub ratio ONE_Q64 ;;
  do q <- sdiv d bin_step_u128 ;;
  smul U128_MAX q 2.

(** state/fee.rs:58-79 [update_volatility_accumulator]. *)
Definition update_volatility_accumulator (df : dynamic_fee) (vt : tracker) (price : Z)
  : res tracker :=
  do dp <- delta_bin_id (df_bin_step_u128 df) price (vt_price_ref vt) ;;
  do m <- smul U128_MAX dp MAX_BASIS_POINT ;;
  do va <- sadd U128_MAX (vt_vref vt) m ;;
  Ok (mkTracker (vt_last vt) (vt_price_ref vt) (Z.min va (df_max_va df)) (vt_vref vt)).

(** state/fee.rs:81-110 [update_references]. *)
Definition update_references (df : dynamic_fee) (vt : tracker) (price now : Z) : res tracker :=
  let elapsed := Z.max 0 (now - vt_last vt) in
  if df_filter df <=? elapsed then
    if elapsed <? df_decay df then
      do m <- smul U128_MAX (vt_va vt) (df_reduction df) ;;
      do vref <- sdiv m MAX_BASIS_POINT ;;
      Ok (mkTracker (vt_last vt) price (vt_va vt) vref)
    else Ok (mkTracker (vt_last vt) price (vt_va vt) 0)
  else Ok vt.

(** ** Total fee numerator: state/config.rs:117-135. After the cap test the value is at most
    MAX_FEE_NUMERATOR, so the [try_into().unwrap()] cannot panic. *)
Definition total_fee_numerator (df : dynamic_fee) (base_num : Z) (vt : tracker) : res Z :=
  do v <- variable_fee_numerator df vt ;;
  do t <- sadd U128_MAX v base_num ;;
  Ok (if MAX_FEE_NUMERATOR <? t then MAX_FEE_NUMERATOR else t).

(** state/config.rs:61-66 [PoolFeesConfig]. *)
Record pool_fees := mkPoolFees { pf_base : base_fee; pf_dyn : dynamic_fee }.

(** state/config.rs:77-95 *)
Definition total_num_included (pf : pool_fees) (vt : tracker) (current activation amount : Z)
    (d : direction) : res Z :=
  do b <- base_num_included (pf_base pf) current activation d amount ;;
  total_fee_numerator (pf_dyn pf) b vt.

(** state/config.rs:97-115 *)
Definition total_num_excluded (pf : pool_fees) (vt : tracker) (current activation amount : Z)
    (d : direction) : res Z :=
  do b <- base_num_excluded (pf_base pf) current activation d amount ;;
  total_fee_numerator (pf_dyn pf) b vt.

(** ** Fee mode: state/fee.rs:113-145 *)
Record fee_mode := mkFeeMode {
  fm_on_input : bool; fm_on_base : bool; fm_referral : bool }.

Definition get_fee_mode (collect : Z) (d : direction) (has_referral : bool) : res fee_mode :=
  do cm <- collect_of collect ;;
  Ok (match cm, d with
      | OutputToken, BaseToQuote => mkFeeMode false false has_referral
      | OutputToken, QuoteToBase => mkFeeMode false true has_referral
      | QuoteToken, BaseToQuote => mkFeeMode false false has_referral
      | QuoteToken, QuoteToBase => mkFeeMode true false has_referral
      end).
