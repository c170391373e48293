(** * Model of src/state/config.rs (pool config), src/params/liquidity_distribution.rs,
      src/migration_handler/*, src/utils/damm_v2_utils.rs and
      src/instructions/partner/ix_create_config.rs *)
From Coq Require Import ZArith List Bool.
From Verif Require Import Base MathModel CurveModel FeeModel.
Import ListNotations.
Open Scope Z_scope.

(** constants.rs:3-66, 98-107 *)
Definition MIN_SQRT_PRICE : Z := 4295048016.
Definition MAX_SQRT_PRICE : Z := 79226673521066979257578248091.
Definition BASIS_POINT_MAX : Z := 10000.
Definition MAX_CURVE_POINT : Z := 16.
Definition MAX_CURVE_POINT_CONFIG : nat := 20.
Definition SWAP_BUFFER_PERCENTAGE : Z := 25.
Definition PARTNER_AND_CREATOR_SURPLUS_SHARE : Z := 80.
Definition MAX_MIGRATION_FEE_PERCENTAGE : Z := 99.
Definition MIN_LOCKED_LIQUIDITY_BPS : Z := 1000.
Definition SECONDS_PER_DAY : Z := 86400.
Definition MAX_LOCK_DURATION_IN_SECONDS : Z := 63072000.
Definition PROTOCOL_POOL_CREATION_FEE_PERCENT : Z := 10.
Definition MIN_POOL_CREATION_FEE : Z := 1000000.
Definition MAX_POOL_CREATION_FEE : Z := 100000000000.
Definition PROTOCOL_LIQUIDITY_MIGRATION_FEE_BPS : Z := 20.
Definition MIN_MIGRATED_POOL_FEE_BPS : Z := 10.
Definition MAX_MIGRATED_POOL_FEE_BPS : Z := 1000.
(** migration_handler/compounding_liquidity.rs:14 (100 << 64) *)
Definition DEAD_LIQUIDITY : Z := 1844674407370955161600.
(** idls/damm_v2.json constants *)
Definition DAMM_V2_FEE_DENOMINATOR : Z := 1000000000.
Definition DAMM_V2_MIN_FEE_NUMERATOR : Z := 100000.
Definition DAMM_V2_MAX_FEE_NUMERATOR_V1 : Z := 990000000.
(** constants.rs:14-34 dynamic_fee *)
Definition FILTER_PERIOD_DEFAULT : Z := 10.
Definition DECAY_PERIOD_DEFAULT : Z := 120.
Definition REDUCTION_FACTOR_DEFAULT : Z := 5000.
Definition MAX_DYNAMIC_FEE_PERCENT : Z := 20.
Definition MAX_VOLATILITY_ACCUMULATOR : Z := 14460000.
Definition SQUARE_VFA_BIN : Z := 209091600000000.

(** state/config.rs:681-684 and params/liquidity_distribution.rs:18-21: a curve point is
    (sqrt_price, liquidity). *)
Definition point : Type := (Z * Z)%type.

(** ** Curve integrals: params/liquidity_distribution.rs *)

(** params/liquidity_distribution.rs:38-62: the loop of [get_base_token_for_swap]. [low] is
    the lower price of the current segment, [total] the running U256 sum. *)
Fixpoint base_for_swap_loop (low mig total : Z) (curve : list point) : res Z :=
  match curve with
  | [] => Ok total
  | (p, l) :: rest =>
    if mig <? p then
      do d <- delta_base_256 low mig l Up ;;
      sadd U256_MAX total d
    else
      do d <- delta_base_256 low p l Up ;;
      do total' <- sadd U256_MAX total d ;;
      base_for_swap_loop p mig total' rest
  end.

(** params/liquidity_distribution.rs:32-64 *)
Definition get_base_token_for_swap (start mig : Z) (curve : list point) : res Z :=
  base_for_swap_loop start mig 0 curve.

(** params/liquidity_distribution.rs:92-117: the loop over segments 1.. *)
Fixpoint threshold_loop (price lft : Z) (curve : list point) : res (Z * Z) :=
  match curve with
  | [] => Ok (price, lft)
  | (p, l) :: rest =>
    do mx <- delta_quote_256 price p l Up ;;
    if lft <? mx then
      do next <- next_price_from_input price l lft false ;;
      Ok (next, 0)
    else
      do mx' <- scast U64_MAX mx ;;
      do lft' <- ssub lft mx' ;;
      threshold_loop p lft' rest
  end.

(** params/liquidity_distribution.rs:66-120. [curve[0]] on an empty curve panics. *)
Definition get_migration_threshold_price (threshold start : Z) (curve : list point) : res Z :=
  match curve with
  | [] => Err EPanic
  | (p0, l0) :: rest =>
    do total <- delta_quote_256 start p0 l0 Up ;;
    if threshold <? total then next_price_from_input start l0 threshold false
    else
      do total' <- scast U64_MAX total ;;
      do lft <- ssub threshold total' ;;
      do r <- threshold_loop p0 lft rest ;;
      let '(next, lft') := r in
      do _ <- require (lft' =? 0) ENotEnoughLiquidity ;;
      Ok next
  end.

(** ** Locked vesting of base tokens: state/config.rs:332-355, ix_create_config.rs:251-310 *)
Record locked_vesting := mkLockedVesting {
  lv_amount_per_period : Z;
  lv_cliff_duration : Z;
  lv_frequency : Z;
  lv_number_of_period : Z;
  lv_cliff_unlock_amount : Z }.

(** ix_create_config.rs:290-295 *)
Definition lv_total (v : locked_vesting) : res Z :=
  do m <- smul U64_MAX (lv_amount_per_period v) (lv_number_of_period v) ;;
  sadd U64_MAX (lv_cliff_unlock_amount v) m.

(** ix_create_config.rs:297-299 *)
Definition has_vesting (v : locked_vesting) : bool :=
  negb ((lv_amount_per_period v =? 0) && (lv_cliff_duration v =? 0)
        && (lv_frequency v =? 0) && (lv_number_of_period v =? 0)
        && (lv_cliff_unlock_amount v =? 0)).

(** ix_create_config.rs:300-309 *)
Definition lv_validate (v : locked_vesting) : res unit :=
  if has_vesting v then
    do t <- lv_total v ;;
    require (negb (lv_frequency v =? 0) && negb (t =? 0)) EInvalidVestingParameters
  else Ok tt.

(** ix_create_config.rs:272-288: parameters handed to the locker program. *)
Record escrow := mkEscrow {
  es_start : Z; es_cliff_time : Z; es_frequency : Z; es_cliff_unlock : Z;
  es_per_period : Z; es_periods : Z; es_update_recipient_mode : Z; es_cancel_mode : Z }.

Definition to_create_vesting_escrow_params (v : locked_vesting) (finish : Z) : escrow :=
  mkEscrow finish (Z.min U64_MAX (finish + lv_cliff_duration v)) (lv_frequency v)
           (lv_cliff_unlock_amount v) (lv_amount_per_period v) (lv_number_of_period v) 2 1.

(** ** Vesting of migrated liquidity: state/config.rs:578-677 *)
Record liq_vesting := mkLiqVesting {
  vi_initialized : Z;        (* u8 *)
  vi_percentage : Z;         (* u8 *)
  vi_bps_per_period : Z;     (* u16 *)
  vi_periods : Z;            (* u16 *)
  vi_frequency : Z;          (* u32 *)
  vi_cliff : Z               (* u32 *)
}.

(** DAMM v2 [VestingParameters] *)
Record vesting_params := mkVestingParams {
  vp_cliff_point : Z; vp_per_period : Z; vp_cliff_unlock : Z; vp_frequency : Z; vp_periods : Z }.

(** state/config.rs:629-676 *)
Definition damm_v2_vesting_parameters (v : liq_vesting) (total now : Z) : res vesting_params :=
  do total_bps <- smul U16_MAX (vi_bps_per_period v) (vi_periods v) ;;
  do after_cliff <- safe_mul_div_cast_u128 total total_bps MAX_BASIS_POINT Down ;;
  do per_period <- (if 0 <? vi_periods v then sdiv after_cliff (vi_periods v) else Ok 0) ;;
  let '(periods, freq, cliff) :=
    if per_period =? 0 then (0, 0, Z.max (vi_cliff v) 1)
    else (vi_periods v, vi_frequency v, vi_cliff v) in
  do m <- smul U128_MAX per_period periods ;;
  do cliff_unlock <- ssub total m ;;
  do cliff_point <- sadd U64_MAX now cliff ;;
  Ok (mkVestingParams cliff_point per_period cliff_unlock freq periods).

(** utils/damm_v2_utils.rs:54-80 (the cliff point is always [Some] here) *)
Definition max_unlocked_at (vp : vesting_params) (cur : Z) : res Z :=
  if cur <? vp_cliff_point vp then Ok 0
  else if vp_frequency vp =? 0 then Ok (vp_cliff_unlock vp)
  else
    do e <- ssub cur (vp_cliff_point vp) ;;
    do period <- sdiv e (vp_frequency vp) ;;
    let period := Z.min period (vp_periods vp) in
    do m <- smul U128_MAX period (vp_per_period vp) ;;
    sadd U128_MAX (vp_cliff_unlock vp) m.

(** utils/damm_v2_utils.rs:86-94 *)
Definition vesting_total_lock (vp : vesting_params) : res Z :=
  do m <- smul U128_MAX (vp_per_period vp) (vp_periods vp) ;;
  sadd U128_MAX (vp_cliff_unlock vp) m.

(** utils/damm_v2_utils.rs:98-141 *)
Definition validate_vesting_parameters (vp : vesting_params) (cur maxd : Z) : res unit :=
  do _ <- require (cur <=? vp_cliff_point vp) EInvalidVestingParameters ;;
  do _ <- (if vp_cliff_point vp =? cur
           then require (0 <? vp_periods vp) EInvalidVestingParameters else Ok tt) ;;
  do _ <- (if 0 <? vp_periods vp
           then require ((0 <? vp_frequency vp) && (0 <? vp_per_period vp))
                        EInvalidVestingParameters
           else Ok tt) ;;
  do a <- ssub (vp_cliff_point vp) cur ;;
  do b <- smul U64_MAX (vp_frequency vp) (vp_periods vp) ;;
  do duration <- sadd U64_MAX a b ;;
  do _ <- require (duration <=? maxd) EInvalidVestingParameters ;;
  do t <- vesting_total_lock vp ;;
  require (0 <? t) EInvalidVestingParameters.

(** state/config.rs:593-627 *)
Definition liquidity_locked_bps_at (v : liq_vesting) (n : Z) : res Z :=
  if vi_initialized v =? 0 then Ok 0
  else
    do vested <- safe_mul_div_cast_u128 U128_MAX (vi_percentage v) 100 Down ;;
    do vp <- damm_v2_vesting_parameters v vested 0 ;;
    do unlocked <- max_unlocked_at vp n ;;
    do locked <- ssub vested unlocked ;;
    do bps <- safe_mul_div_cast_u128 locked MAX_BASIS_POINT U128_MAX Down ;;
    scast U16_MAX bps.

(** ix_create_config.rs:315-321 [LiquidityVestingInfoParams] *)
Record liq_vesting_params := mkLVParams {
  vq_percentage : Z; vq_bps_per_period : Z; vq_periods : Z; vq_cliff : Z; vq_frequency : Z }.

(** ix_create_config.rs:326-328 *)
Definition vq_is_zero (q : liq_vesting_params) : bool :=
  (vq_percentage q =? 0) && (vq_bps_per_period q =? 0) && (vq_periods q =? 0)
  && (vq_cliff q =? 0) && (vq_frequency q =? 0).

(** ix_create_config.rs:355-366 *)
Definition to_liquidity_vesting_info (q : liq_vesting_params) : liq_vesting :=
  mkLiqVesting (if vq_is_zero q then 0 else 1) (vq_percentage q) (vq_bps_per_period q)
               (vq_periods q) (vq_frequency q) (vq_cliff q).

(** ix_create_config.rs:330-353 *)
Definition vq_validate (q : liq_vesting_params) (now : Z) : res unit :=
  if vq_is_zero q then Ok tt
  else
    do vested <- safe_mul_div_cast_u128 U128_MAX (vq_percentage q) 100 Down ;;
    do vp <- damm_v2_vesting_parameters (to_liquidity_vesting_info q) vested now ;;
    validate_vesting_parameters vp now MAX_LOCK_DURATION_IN_SECONDS.

(** ** The config account: state/config.rs:486-574 (paddings, version and the token program
    flag of the quote mint are omitted). *)
Record config := mkConfig {
  c_quote_mint : Z;
  c_fee_claimer : Z;
  c_leftover_receiver : Z;
  c_fees : pool_fees;
  c_partner_vesting : liq_vesting;
  c_creator_vesting : liq_vesting;
  c_collect_fee_mode : Z;
  c_migration_option : Z;
  c_activation_type : Z;
  c_token_decimal : Z;
  c_token_type : Z;
  c_partner_perm_pct : Z;
  c_partner_liq_pct : Z;
  c_creator_perm_pct : Z;
  c_creator_liq_pct : Z;
  c_migration_fee_option : Z;
  c_fixed_supply_flag : Z;
  c_creator_trading_fee_pct : Z;
  c_token_update_authority : Z;
  c_migration_fee_pct : Z;
  c_creator_migration_fee_pct : Z;
  c_swap_base_amount : Z;
  c_threshold : Z;               (* migration_quote_threshold *)
  c_base_threshold : Z;          (* migration_base_threshold *)
  c_mig_price : Z;               (* migration_sqrt_price *)
  c_vesting : locked_vesting;
  c_pre_supply : Z;
  c_post_supply : Z;
  c_migrated_collect_mode : Z;
  c_migrated_dynamic_fee : Z;
  c_migrated_pool_fee_bps : Z;
  c_migrated_base_fee_mode : Z;
  c_first_swap_min_fee : Z;
  c_compounding_fee_bps : Z;
  c_pool_creation_fee : Z;
  c_mc_number_of_period : Z;     (* migrated_pool_base_fee_bytes, decoded *)
  c_mc_price_step : Z;
  c_mc_expiration : Z;
  c_mc_reduction : Z;
  c_start : Z;                   (* sqrt_start_price *)
  c_curve : list point           (* 20 entries, unused ones are (0, 0) *)
}.

(** state/config.rs:811-823 [get_migration_quote_amount]: (quote_amount, fee).
    [100.safe_sub(pct)] is on u64. *)
Definition get_migration_quote_amount (threshold pct : Z) : res (Z * Z) :=
  do k <- ssub 100 pct ;;
  do q <- safe_mul_div_cast_u64 U64_MAX threshold k 100 Up ;;
  do fee <- ssub threshold q ;;
  Ok (q, fee).

(** state/config.rs:825-839: (partner, creator) migration fee. *)
Definition get_migration_fee_distribution (c : config) : res (Z * Z) :=
  do qf <- get_migration_quote_amount (c_threshold c) (c_migration_fee_pct c) ;;
  let fee := snd qf in
  do creator <- safe_mul_div_cast_u64 U64_MAX fee (c_creator_migration_fee_pct c) 100 Down ;;
  do partner <- ssub fee creator ;;
  Ok (partner, creator).

(** state/config.rs:841-860 *)
Definition get_swap_amount_with_buffer (swap_base start : Z) (curve : list point) : res Z :=
  do a <- smul U128_MAX swap_base SWAP_BUFFER_PERCENTAGE ;;
  do b <- sdiv a 100 ;;
  do buf <- sadd U128_MAX b swap_base ;;
  do mx <- get_base_token_for_swap start MAX_SQRT_PRICE curve ;;
  if buf <? mx then (if buf <=? U64_MAX then Ok buf else Err EMathOverflow)
  else (if mx <=? U64_MAX then Ok mx else Err EMathOverflow).

(** state/config.rs:861-870 *)
Definition get_total_token_supply (swap_base mig_base : Z) (v : locked_vesting) : res Z :=
  do a <- sadd U64_MAX swap_base mig_base ;;
  do t <- lv_total v ;;
  sadd U64_MAX a t.

(** state/config.rs:912-914 *)
Definition is_fixed_supply (c : config) : bool := c_fixed_supply_flag c =? 1.

(** state/config.rs:876-882: the curve entries before the first zero liquidity. *)
Fixpoint used_curve (curve : list point) : list point :=
  match curve with
  | [] => []
  | (p, l) :: rest => if l =? 0 then [] else (p, l) :: used_curve rest
  end.

(** state/config.rs:872-894 *)
Definition get_initial_base_supply (c : config) : res Z :=
  if is_fixed_supply c then Ok (c_pre_supply c)
  else
    do buf <- get_swap_amount_with_buffer (c_swap_base_amount c) (c_start c)
                                          (used_curve (c_curve c)) ;;
    get_total_token_supply buf (c_base_threshold c) (c_vesting c).

(** state/config.rs:896-910 *)
Definition get_burnable_amount (c : config) (leftover : Z) : res Z :=
  do mx <- (if is_fixed_supply c then ssub (c_pre_supply c) (c_post_supply c)
            else Ok U64_MAX) ;;
  Ok (Z.min mx leftover).

(** state/config.rs:1217-1223 [LiquidityDistributionItem] *)
Record liq_item := mkLiqItem {
  li_unlocked : Z; li_perm : Z; li_vested : Z; li_perm_pct : Z; li_vesting : liq_vesting }.

(** state/config.rs:916-977: (partner, creator). *)
Definition get_liquidity_distribution (c : config) (liq : Z) : res (liq_item * liq_item) :=
  do pp <- safe_mul_div_cast_u128 liq (c_partner_perm_pct c) 100 Down ;;
  do pv <- safe_mul_div_cast_u128 liq (vi_percentage (c_partner_vesting c)) 100 Down ;;
  do pl <- safe_mul_div_cast_u128 liq (c_partner_liq_pct c) 100 Down ;;
  do cp <- safe_mul_div_cast_u128 liq (c_creator_perm_pct c) 100 Down ;;
  do cv <- safe_mul_div_cast_u128 liq (vi_percentage (c_creator_vesting c)) 100 Down ;;
  do a <- ssub liq pl ;;
  do b <- ssub a pp ;;
  do d <- ssub b pv ;;
  do e <- ssub d cp ;;
  do cl <- ssub e cv ;;
  Ok (mkLiqItem pl pp pv (c_partner_perm_pct c) (c_partner_vesting c),
      mkLiqItem cl cp cv (c_creator_perm_pct c) (c_creator_vesting c)).

(** state/config.rs:1203-1214:
    (partner_locked, partner, creator_locked, creator), all cast to u64. *)
Definition to_damm_v1_distribution (d : liq_item * liq_item) : res (Z * Z * Z * Z) :=
  let '(p, c) := d in
  do a <- scast U64_MAX (li_perm p) ;;
  do b <- scast U64_MAX (li_unlocked p) ;;
  do e <- scast U64_MAX (li_perm c) ;;
  do f <- scast U64_MAX (li_unlocked c) ;;
  Ok (a, b, e, f).

(** state/config.rs:1226-1237 *)
Definition li_total (i : liq_item) : res Z :=
  do a <- sadd U128_MAX (li_unlocked i) (li_perm i) ;; sadd U128_MAX a (li_vested i).
Definition li_locked (i : liq_item) : res Z := sadd U128_MAX (li_perm i) (li_vested i).

(** state/config.rs:1247-1279 *)
Definition adjust_liquidity (i : liq_item) (adj : Z) : res liq_item :=
  let vpct := vi_percentage (li_vesting i) in
  do tot <- sadd U8_MAX vpct (li_perm_pct i) ;;
  if tot =? 0 then Ok (mkLiqItem adj 0 0 (li_perm_pct i) (li_vesting i))
  else
    let unlocked := Z.min adj (li_unlocked i) in
    do rest <- ssub adj unlocked ;;
    do vested <- safe_mul_div_cast_u128 rest vpct tot Down ;;
    do perm <- ssub rest vested ;;
    Ok (mkLiqItem unlocked perm vested (li_perm_pct i) (li_vesting i)).

(** state/config.rs:979-998: (partner, creator). *)
Definition split_partner_and_creator_fee (c : config) (fee : Z) : res (Z * Z) :=
  if c_creator_trading_fee_pct c =? 0 then Ok (fee, 0)
  else
    do cr <- safe_mul_div_cast_u64 U64_MAX fee (c_creator_trading_fee_pct c) 100 Down ;;
    do pa <- ssub fee cr ;;
    Ok (pa, cr).

(** state/config.rs:1000-1009: (protocol, partner). *)
Definition split_pool_creation_fee (c : config) : res (Z * Z) :=
  do pr <- safe_mul_div_cast_u64 U64_MAX (c_pool_creation_fee c)
                                 PROTOCOL_POOL_CREATION_FEE_PERCENT 100 Down ;;
  do pa <- ssub (c_pool_creation_fee c) pr ;;
  Ok (pr, pa).

(** state/config.rs:1011-1030 *)
Definition total_locked_bps_at (c : config) (n : Z) : res Z :=
  do pv <- liquidity_locked_bps_at (c_partner_vesting c) n ;;
  do cv <- liquidity_locked_bps_at (c_creator_vesting c) n ;;
  do pp <- smul U16_MAX (c_partner_perm_pct c) 100 ;;
  do cp <- smul U16_MAX (c_creator_perm_pct c) 100 ;;
  do a <- sadd U16_MAX pv pp ;;
  do b <- sadd U16_MAX a cv ;;
  sadd U16_MAX b cp.

(** state/config.rs:369-402, 799-803 [TokenAuthorityOption] *)
Definition get_mint_authority (opt creator partner : Z) : res (option Z) :=
  if opt =? 3 then Ok (Some creator) else if opt =? 4 then Ok (Some partner)
  else if (0 <=? opt) && (opt <=? 2) then Ok None else Err EInvalidTokenAuthorityOption.
Definition get_update_authority (opt creator partner : Z) : res (option Z) :=
  if (opt =? 0) || (opt =? 3) then Ok (Some creator)
  else if (opt =? 2) || (opt =? 4) then Ok (Some partner)
  else if opt =? 1 then Ok None else Err EInvalidTokenAuthorityOption.

(** state/config.rs:458-483 *)
Definition migration_fee_option_validate (opt bps : Z) : res unit :=
  let want := if opt =? 0 then Some 25 else if opt =? 1 then Some 30
              else if opt =? 2 then Some 100 else if opt =? 3 then Some 200
              else if opt =? 4 then Some 400 else if opt =? 5 then Some 600 else None in
  match want with
  | Some w => require (bps =? w) EInvalidMigrationFeeOption
  | None => Ok tt
  end.

(** ** Migrated DAMM v2 pool fees *)

(** utils/damm_v2_utils.rs:30-50 *)
Definition calculate_dynamic_fee_params (base_num : Z) : res dynamic_fee :=
  do a <- smul U128_MAX base_num MAX_DYNAMIC_FEE_PERCENT ;;
  do mx <- sdiv a 100 ;;
  do b <- smul U128_MAX mx 100000000000 ;;
  do v <- ssub b 99999999999 ;;
  do vfc <- sdiv v SQUARE_VFA_BIN ;;
  do vfc <- scast U32_MAX vfc ;;
  Ok (mkDynFee 1 MAX_VOLATILITY_ACCUMULATOR vfc BIN_STEP_BPS_DEFAULT FILTER_PERIOD_DEFAULT
               DECAY_PERIOD_DEFAULT REDUCTION_FACTOR_DEFAULT BIN_STEP_BPS_U128_DEFAULT).

(** utils/damm_v2_utils.rs:232-257: fee after [period] steps of the market cap scheduler
    (modes 3 linear and 4 exponential). *)
Definition mc_by_period (mode cliff number_of_period reduction period : Z) : res Z :=
  let period := Z.min period number_of_period in
  if mode =? 3 then
    do m <- smul U64_MAX reduction period ;;
    ssub cliff m
  else if mode =? 4 then
    do period <- (if period <=? U16_MAX then Ok period else Err EMathOverflow) ;;
    get_fee_in_period cliff reduction period
  else if (0 <=? mode) && (mode <=? 2) then Err EUndeterminedError
  else Err ETypeCastFailed.

(** utils/damm_v2_utils.rs:195-230 (InvalidFeeMarketCapScheduler is [EInvalidParameters]) *)
Definition mc_validate (mode cliff number_of_period step expiration reduction : Z) : res unit :=
  do _ <- require (0 <? reduction) EInvalidParameters ;;
  do _ <- require (0 <? step) EInvalidParameters ;;
  do _ <- require (0 <? expiration) EInvalidParameters ;;
  do _ <- require (0 <? number_of_period) EInvalidParameters ;;
  do mn <- mc_by_period mode cliff number_of_period reduction number_of_period ;;
  do _ <- validate_fee_fraction mn DAMM_V2_FEE_DENOMINATOR ;;
  do _ <- validate_fee_fraction cliff DAMM_V2_FEE_DENOMINATOR ;;
  require ((DAMM_V2_MIN_FEE_NUMERATOR <=? mn) && (cliff <=? DAMM_V2_MAX_FEE_NUMERATOR_V1))
          EExceedMaxFeeBps.

(** state/config.rs:1111-1162 *)
Definition migrated_min_base_fee (c : config) : res Z :=
  let mode := c_migrated_base_fee_mode c in
  if (mode =? 0) || (mode =? 1) then
    to_numerator (c_migrated_pool_fee_bps c) DAMM_V2_FEE_DENOMINATOR
  else if (mode =? 3) || (mode =? 4) then
    do cliff <- to_numerator (c_migrated_pool_fee_bps c) DAMM_V2_FEE_DENOMINATOR ;;
    mc_by_period mode cliff (c_mc_number_of_period c) (c_mc_reduction c)
                 (c_mc_number_of_period c)
  else if mode =? 2 then Err EUndeterminedError
  else Err ETypeCastFailed.

(** state/config.rs:1032-1052 *)
Definition migrated_dynamic_fee_params (c : config) : res (option dynamic_fee) :=
  do mn <- migrated_min_base_fee c ;;
  if c_migrated_dynamic_fee c =? 0 then Ok None
  else if c_migrated_dynamic_fee c =? 1 then
    match calculate_dynamic_fee_params mn with
    | Ok p => Ok (Some p)
    | Err _ => Ok None
    end
  else Err ETypeCastFailed.

(** ** Migration handlers: migration_handler/*.rs *)
Inductive handler := Compounding | Concentrated.

(** migration_handler/mod.rs:31-35 *)
Definition migrated_mode_ok (m : Z) : bool := (0 <=? m) && (m <=? 2).

(** migration_handler/mod.rs:90-111 *)
Definition get_migration_handler (option_ mode : Z) : handler :=
  if option_ =? 0 then Compounding else if mode =? 2 then Compounding else Concentrated.

(** migration_handler/mod.rs:38-48 *)
Definition to_dammv2_collect_fee_mode (m : Z) : res Z :=
  if m =? 0 then Ok 1 else if m =? 1 then Ok 0 else if m =? 2 then Ok 2
  else Err ETypeCastFailed.

(** migration_handler/concentrated_liquidity.rs:181-192 *)
Definition liquidity_from_delta_quote (quote pmin price : Z) : res Z :=
  do d <- ssub price pmin ;;
  do l <- sdiv (quote * Q128) d ;;
  scast U128_MAX l.

(** migration_handler/concentrated_liquidity.rs:167-178; a u64 times two u128 fits U512. *)
Definition liquidity_from_delta_base (base pmax price : Z) : res Z :=
  do d <- ssub pmax price ;;
  sdiv (base * price * pmax) d.

(** migration_handler/concentrated_liquidity.rs:148-164 *)
Definition concentrated_initial_liquidity (base quote price : Z) : res Z :=
  do lb <- liquidity_from_delta_base base MAX_SQRT_PRICE price ;;
  do lq <- liquidity_from_delta_quote quote MIN_SQRT_PRICE price ;;
  if lq <? lb then Ok lq else scast U128_MAX lb.

(** migration_handler/compounding_liquidity.rs:199-215 *)
Definition constant_product_base (quote price : Z) : res Z :=
  do pp <- smul U256_MAX price price ;;
  do _ <- require (negb (pp =? 0)) EPanic ;;
  let b := cdiv (quote * Q128) pp in
  do _ <- require (b <=? U64_MAX) EMathOverflow ;;
  scast U64_MAX b.

(** migration_handler/compounding_liquidity.rs:170-197. [div_ceil] by zero panics
    (modelled as None here; the callers turn None into an error). *)
Definition compounding_price_and_liquidity (a b : Z) : option (Z * Z) :=
  if a =? 0 then None
  else
    match sqrt_u256 (cdiv (b * Q128) a) with
    | None => None
    | Some s1 =>
      if U128_MAX <? s1 then None
      else if (s1 <? MIN_SQRT_PRICE) || (MAX_SQRT_PRICE <? s1) then None
      else
        match sqrt_u256 (b * Q128 / a) with
        | None => None
        | Some s2 =>
          if U128_MAX <? s2 then None
          else if s2 * a <=? U128_MAX then Some (s1, s2 * a) else None
        end
    end.

(** migration_handler/compounding_liquidity.rs:20-49 *)
Definition compounding_validate (base quote price : Z) : res unit :=
  do r <- ok_or (compounding_price_and_liquidity base quote) EMathOverflow ;;
  let '(s, l) := r in
  do _ <- require ((MIN_SQRT_PRICE <=? s) && (s <=? MAX_SQRT_PRICE))
                  EInvalidCompoundingParameters ;;
  do _ <- require (DEAD_LIQUIDITY <? l) EInsufficientLiquidityForMigration ;;
  do m <- smul U128_MAX (Z.abs (price - s)) 100 ;;
  require (m <=? Z.max price s) EInvalidCurve.

(** compounding_liquidity.rs:51-69, concentrated_liquidity.rs:36-61:
    (base fee, quote fee). *)
Definition migration_protocol_fees (h : handler) (price base quote bps : Z) : res (Z * Z) :=
  match h with
  | Compounding =>
    do b <- safe_mul_div_cast_u64 U64_MAX base bps BASIS_POINT_MAX Down ;;
    do q <- safe_mul_div_cast_u64 U64_MAX quote bps BASIS_POINT_MAX Down ;;
    Ok (b, q)
  | Concentrated =>
    do q <- safe_mul_div_cast_u64 U64_MAX quote bps BASIS_POINT_MAX Down ;;
    do l <- liquidity_from_delta_quote q MIN_SQRT_PRICE price ;;
    do b <- delta_base price MAX_SQRT_PRICE l Down ;;
    Ok (b, q)
  end.

(** compounding_liquidity.rs:73-90, concentrated_liquidity.rs:19-34:
    (sqrt_price, distributable liquidity, dead liquidity). *)
Definition initial_pool_information (h : handler) (price base quote : Z) : res (Z * Z * Z) :=
  match h with
  | Compounding =>
    do r <- ok_or (compounding_price_and_liquidity base quote) EMathOverflow ;;
    let '(s, l) := r in
    do d <- ssub l DEAD_LIQUIDITY ;;
    Ok (s, d, DEAD_LIQUIDITY)
  | Concentrated =>
    do l <- concentrated_initial_liquidity base quote price ;;
    Ok (price, l, 0)
  end.

(** compounding_liquidity.rs:105-128, concentrated_liquidity.rs:63-77 *)
Definition calculate_liquidity_delta (h : handler) (price base quote rbase rquote rliq : Z)
  : res Z :=
  match h with
  | Compounding =>
    do lb <- safe_mul_div_cast_u128 base rliq rbase Down ;;
    do lq <- safe_mul_div_cast_u128 quote rliq rquote Down ;;
    Ok (Z.min lb lq)
  | Concentrated => concentrated_initial_liquidity base quote price
  end.

(** compounding_liquidity.rs:129-143, concentrated_liquidity.rs:79-126 (the
    [feature = "local"] re-validation is compiled out): (base, quote). *)
Definition migration_amounts_1 (h : handler) (price threshold pct : Z) : res (Z * Z) :=
  do qf <- get_migration_quote_amount threshold pct ;;
  let q := fst qf in
  match h with
  | Compounding =>
    do b <- constant_product_base q price ;;
    Ok (b, q)
  | Concentrated =>
    do l <- liquidity_from_delta_quote q MIN_SQRT_PRICE price ;;
    do b <- delta_base_256 price MAX_SQRT_PRICE l Up ;;
    do _ <- require (b <=? U64_MAX) EMathOverflow ;;
    do b <- scast U64_MAX b ;;
    Ok (b, q)
  end.

(** compounding_liquidity.rs:145-165, concentrated_liquidity.rs:128-144: (base, quote). *)
Definition migration_amounts_2 (h : handler) (base_threshold threshold pct reserve : Z)
  : res (Z * Z) :=
  match h with
  | Compounding =>
    do _ <- require (base_threshold <=? reserve) EUndeterminedError ;;
    do qf <- get_migration_quote_amount threshold pct ;;
    Ok (base_threshold, fst qf)
  | Concentrated =>
    do qf <- get_migration_quote_amount threshold pct ;;
    Ok (reserve, fst qf)
  end.

(** ** create_config: instructions/partner/ix_create_config.rs *)

(** ix_create_config.rs:42-73, 75-79, 224-250 [ConfigParameters] (padding omitted). *)
Record config_params := mkParams {
  q_base_fee : base_fee;
  q_dynamic_fee : option dynamic_fee;
  q_collect_fee_mode : Z;
  q_migration_option : Z;
  q_activation_type : Z;
  q_token_type : Z;
  q_token_decimal : Z;
  q_partner_liq_pct : Z;
  q_partner_perm_pct : Z;
  q_creator_liq_pct : Z;
  q_creator_perm_pct : Z;
  q_threshold : Z;
  q_start : Z;
  q_vesting : locked_vesting;
  q_migration_fee_option : Z;
  q_token_supply : option (Z * Z);       (* (pre, post) *)
  q_creator_trading_fee_pct : Z;
  q_token_update_authority : Z;
  q_migration_fee_pct : Z;
  q_creator_migration_fee_pct : Z;
  q_migrated_collect_mode : Z;
  q_migrated_dynamic_fee : Z;
  q_migrated_pool_fee_bps : Z;
  q_pool_creation_fee : Z;
  q_partner_vesting : liq_vesting_params;
  q_creator_vesting : liq_vesting_params;
  q_migrated_base_fee_mode : Z;
  q_mc_number_of_period : Z;
  q_mc_price_step : Z;
  q_mc_expiration : Z;
  q_mc_reduction : Z;
  q_first_swap_min_fee : bool;
  q_compounding_fee_bps : Z;
  q_curve : list point
}.

(** params/fee_parameters.rs:54-64 *)
Definition pool_fees_validate (q : config_params) (act : activation_type) : res unit :=
  do _ <- base_fee_validate (q_base_fee q) (q_collect_fee_mode q) act ;;
  match q_dynamic_fee q with
  | Some df => dyn_validate df
  | None => Ok tt
  end.

(** params/fee_parameters.rs:66-83, 97-109: absent dynamic fee is the all-zero config. *)
Definition to_pool_fees_config (q : config_params) : pool_fees :=
  mkPoolFees (q_base_fee q)
    (match q_dynamic_fee q with
     | Some df => mkDynFee 1 (df_max_va df) (df_vfc df) (df_bin_step df) (df_filter df)
                           (df_decay df) (df_reduction df) (df_bin_step_u128 df)
     | None => mkDynFee 0 0 0 0 0 0 0 0
     end).

(** ix_create_config.rs:83-100 *)
Definition migration_fee_validate (pct creator_pct : Z) : res unit :=
  do _ <- require (pct <=? MAX_MIGRATION_FEE_PERCENTAGE) EInvalidMigratorFeePercentage ;;
  if pct =? 0 then require (creator_pct =? 0) EInvalidMigratorFeePercentage
  else require (creator_pct <=? 100) EInvalidMigratorFeePercentage.

(** ix_create_config.rs:136-146 *)
Definition migrated_fee_is_none (q : config_params) : bool :=
  (q_migrated_collect_mode q =? 0) && (q_migrated_dynamic_fee q =? 0)
  && (q_migrated_pool_fee_bps q =? 0) && (q_compounding_fee_bps q =? 0)
  && (q_migrated_base_fee_mode q =? 0) && (q_mc_number_of_period q =? 0)
  && (q_mc_price_step q =? 0) && (q_mc_expiration q =? 0) && (q_mc_reduction q =? 0).

(** ix_create_config.rs:148-221 *)
Definition migrated_fee_validate (q : config_params) : res unit :=
  do _ <- require ((MIN_MIGRATED_POOL_FEE_BPS <=? q_migrated_pool_fee_bps q)
                   && (q_migrated_pool_fee_bps q <=? MAX_MIGRATED_POOL_FEE_BPS))
                  EInvalidMigratedPoolFee ;;
  do _ <- require (migrated_mode_ok (q_migrated_collect_mode q)) EInvalidCollectFeeMode ;;
  do _ <- (if q_migrated_collect_mode q =? 2
           then require ((0 <? q_compounding_fee_bps q)
                         && (q_compounding_fee_bps q <=? MAX_BASIS_POINT))
                        EInvalidMigratedPoolFee
           else require (q_compounding_fee_bps q =? 0) EInvalidMigratedPoolFee) ;;
  do _ <- require ((q_migrated_dynamic_fee q =? 0) || (q_migrated_dynamic_fee q =? 1))
                  EInvalidMigratedPoolFee ;;
  let mode := q_migrated_base_fee_mode q in
  if (mode =? 0) || (mode =? 1) then
    require ((q_mc_number_of_period q =? 0) && (q_mc_price_step q =? 0)
             && (q_mc_expiration q =? 0) && (q_mc_reduction q =? 0)) EInvalidMigratedPoolFee
  else if (mode =? 3) || (mode =? 4) then
    do cliff <- to_numerator (q_migrated_pool_fee_bps q) DAMM_V2_FEE_DENOMINATOR ;;
    mc_validate mode cliff (q_mc_number_of_period q) (q_mc_price_step q)
                (q_mc_expiration q) (q_mc_reduction q)
  else if mode =? 2 then Err EInvalidMigratedPoolFee
  else Err ETypeCastFailed.

(** ix_create_config.rs:520-526: the curve is strictly increasing with positive liquidity. *)
Fixpoint curve_increasing (prev : Z) (curve : list point) : bool :=
  match curve with
  | [] => true
  | (p, l) :: rest => (prev <? p) && (0 <? l) && curve_increasing p rest
  end.

(** ix_create_config.rs:503-534 *)
Definition curve_validate (start : Z) (curve : list point) : res unit :=
  do _ <- require ((MIN_SQRT_PRICE <=? start) && (start <? MAX_SQRT_PRICE)) EInvalidCurve ;;
  do _ <- require ((0 <? Z.of_nat (length curve))
                   && (Z.of_nat (length curve) <=? MAX_CURVE_POINT)) EInvalidCurve ;;
  match curve with
  | [] => Err EPanic
  | (p0, l0) :: rest =>
    do _ <- require ((start <? p0) && (0 <? l0) && (p0 <=? MAX_SQRT_PRICE)) EInvalidCurve ;;
    do _ <- require (curve_increasing p0 rest) EInvalidCurve ;;
    require (fst (last curve (p0, l0)) <=? MAX_SQRT_PRICE) EInvalidCurve
  end.

(** ix_create_config.rs:370-535 [ConfigParameters::validate].
    [supported] is the result of [is_supported_quote_mint] (utils/token.rs:120-139) and
    [quote_is_spl] says that the quote mint is owned by the SPL token program. *)
Definition params_validate (q : config_params) (supported quote_is_spl : bool) (now : Z)
  : res unit :=
  do _ <- require supported EInvalidQuoteMint ;;
  do act <- (match activation_of (q_activation_type q) with
             | Ok a => Ok a | Err _ => Err ETypeCastFailed end) ;;
  do _ <- pool_fees_validate q act ;;
  do _ <- require (q_creator_trading_fee_pct q <=? 100) EInvalidCreatorTradingFeePercentage ;;
  do _ <- migration_fee_validate (q_migration_fee_pct q) (q_creator_migration_fee_pct q) ;;
  do _ <- collect_of (q_collect_fee_mode q) ;;
  do _ <- require ((q_migration_option q =? 0) || (q_migration_option q =? 1))
                  EInvalidMigrationOption ;;
  do _ <- require ((0 <=? q_migration_fee_option q) && (q_migration_fee_option q <=? 6))
                  EInvalidMigrationFeeOption ;;
  do _ <- require ((q_token_type q =? 0) || (q_token_type q =? 1)) EInvalidTokenType ;;
  do _ <- (if q_migration_option q =? 0 then
             do _ <- require (q_token_type q =? 0) EInvalidTokenType ;;
             do _ <- require quote_is_spl EInvalidQuoteMint ;;
             do _ <- require (negb (q_migration_fee_option q =? 6) && migrated_fee_is_none q)
                             EInvalidMigrationFeeOption ;;
             do _ <- require (vq_is_zero (q_partner_vesting q)) EInvalidVestingParameters ;;
             require (vq_is_zero (q_creator_vesting q)) EInvalidVestingParameters
           else
             do _ <- (if q_migration_fee_option q =? 6 then migrated_fee_validate q
                      else require (migrated_fee_is_none q) EInvalidMigratedPoolFee) ;;
             do _ <- vq_validate (q_partner_vesting q) now ;;
             vq_validate (q_creator_vesting q) now) ;;
  do _ <- require ((0 <=? q_token_update_authority q) && (q_token_update_authority q <=? 4))
                  EInvalidTokenAuthorityOption ;;
  do _ <- require ((6 <=? q_token_decimal q) && (q_token_decimal q <=? 9))
                  EInvalidTokenDecimals ;;
  do s1 <- sadd U8_MAX (q_partner_liq_pct q) (q_partner_perm_pct q) ;;
  do s2 <- sadd U8_MAX s1 (q_creator_liq_pct q) ;;
  do s3 <- sadd U8_MAX s2 (q_creator_perm_pct q) ;;
  do s4 <- sadd U8_MAX s3 (vq_percentage (q_partner_vesting q)) ;;
  do s5 <- sadd U8_MAX s4 (vq_percentage (q_creator_vesting q)) ;;
  do _ <- require (s5 =? 100) EInvalidFeePercentage ;;
  do _ <- require (0 <? q_threshold q) EInvalidQuoteThreshold ;;
  do _ <- lv_validate (q_vesting q) ;;
  do _ <- (if 0 <? q_pool_creation_fee q then
             require ((MIN_POOL_CREATION_FEE <=? q_pool_creation_fee q)
                      && (q_pool_creation_fee q <=? MAX_POOL_CREATION_FEE))
                     EInvalidPoolCreationFee
           else Ok tt) ;;
  curve_validate (q_start q) (q_curve q).

(** state/config.rs:792-794: the 20-entry array of the account. *)
Definition pad_curve (curve : list point) : list point :=
  curve ++ repeat (0, 0) (MAX_CURVE_POINT_CONFIG - length curve).

(** ix_create_config.rs:661-698: (flag, pre, post). *)
Definition supply_of_params (q : config_params) (swap_base base_amount leftover_receiver : Z)
  : res (Z * Z * Z) :=
  match q_token_supply q with
  | Some (pre, post) =>
    do buf <- get_swap_amount_with_buffer swap_base (q_start q) (q_curve q) ;;
    do with_buf <- get_total_token_supply buf base_amount (q_vesting q) ;;
    do without_buf <- get_total_token_supply swap_base base_amount (q_vesting q) ;;
    do _ <- require (negb (leftover_receiver =? 0)) EInvalidLeftoverAddress ;;
    do _ <- require ((without_buf <=? post) && (post <=? pre) && (with_buf <=? pre))
                    EInvalidTokenSupply ;;
    Ok (1, pre, post)
  | None => Ok (0, 0, 0)
  end.

(** ix_create_config.rs:562-791 [handle_create_config], with [PoolConfig::init]
    (state/config.rs:696-797) inlined. Events are omitted. *)
Definition create_config (q : config_params) (supported quote_is_spl : bool) (now : Z)
    (quote_mint fee_claimer leftover_receiver : Z) : res config :=
  do _ <- params_validate q supported quote_is_spl now ;;
  do mig <- get_migration_threshold_price (q_threshold q) (q_start q) (q_curve q) ;;
  do _ <- require (mig <? MAX_SQRT_PRICE) EInvalidCurve ;;
  do swap256 <- get_base_token_for_swap (q_start q) mig (q_curve q) ;;
  do swap_base <- scast U64_MAX swap256 ;;
  do _ <- require (migrated_mode_ok (q_migrated_collect_mode q)) ETypeCastFailed ;;
  let h := get_migration_handler (q_migration_option q) (q_migrated_collect_mode q) in
  do am <- migration_amounts_1 h mig (q_threshold q) (q_migration_fee_pct q) ;;
  let '(base_amount, quote_amount) := am in
  do _ <- require ((0 <? base_amount) && (0 <? swap_base)) EInvalidCurve ;;
  do _ <- (if (q_migration_option q =? 1) && (q_migrated_collect_mode q =? 2) then
             do fees <- migration_protocol_fees Compounding mig base_amount quote_amount
                          PROTOCOL_LIQUIDITY_MIGRATION_FEE_BPS ;;
             let '(fb, fq) := fees in
             do eb <- ssub base_amount fb ;;
             do eq <- ssub quote_amount fq ;;
             compounding_validate eb eq mig
           else Ok tt) ;;
  do sup <- supply_of_params q swap_base base_amount leftover_receiver ;;
  let '(flag, pre, post) := sup in
  let c := {|
    c_quote_mint := quote_mint;
    c_fee_claimer := fee_claimer;
    c_leftover_receiver := leftover_receiver;
    c_fees := to_pool_fees_config q;
    c_partner_vesting := to_liquidity_vesting_info (q_partner_vesting q);
    c_creator_vesting := to_liquidity_vesting_info (q_creator_vesting q);
    c_collect_fee_mode := q_collect_fee_mode q;
    c_migration_option := q_migration_option q;
    c_activation_type := q_activation_type q;
    c_token_decimal := q_token_decimal q;
    c_token_type := q_token_type q;
    c_partner_perm_pct := q_partner_perm_pct q;
    c_partner_liq_pct := q_partner_liq_pct q;
    c_creator_perm_pct := q_creator_perm_pct q;
    c_creator_liq_pct := q_creator_liq_pct q;
    c_migration_fee_option := q_migration_fee_option q;
    c_fixed_supply_flag := flag;
    c_creator_trading_fee_pct := q_creator_trading_fee_pct q;
    c_token_update_authority := q_token_update_authority q;
    c_migration_fee_pct := q_migration_fee_pct q;
    c_creator_migration_fee_pct := q_creator_migration_fee_pct q;
    c_swap_base_amount := swap_base;
    c_threshold := q_threshold q;
    c_base_threshold := base_amount;
    c_mig_price := mig;
    c_vesting := q_vesting q;
    c_pre_supply := pre;
    c_post_supply := post;
    c_migrated_collect_mode := q_migrated_collect_mode q;
    c_migrated_dynamic_fee := q_migrated_dynamic_fee q;
    c_migrated_pool_fee_bps := q_migrated_pool_fee_bps q;
    c_migrated_base_fee_mode := q_migrated_base_fee_mode q;
    c_first_swap_min_fee := if q_first_swap_min_fee q then 1 else 0;
    c_compounding_fee_bps := q_compounding_fee_bps q;
    c_pool_creation_fee := q_pool_creation_fee q;
    c_mc_number_of_period := q_mc_number_of_period q;
    c_mc_price_step := q_mc_price_step q;
    c_mc_expiration := q_mc_expiration q;
    c_mc_reduction := q_mc_reduction q;
    c_start := q_start q;
    c_curve := pad_curve (q_curve q) |} in
  do bps <- total_locked_bps_at c SECONDS_PER_DAY ;;
  do _ <- require (MIN_LOCKED_LIQUIDITY_BPS <=? bps) EInvalidMigrationLockedLiquidity ;;
  Ok c.
