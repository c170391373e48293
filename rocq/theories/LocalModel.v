(** * Model of the code that is compiled only with the feature "local", which the repository's own
    integration tests use. The deployed program is built without it. The third place with that
    feature, admin/auth.rs:19-22, lets every key pass as an admin. *)
From Coq Require Import ZArith List Bool.
From Verif Require Import Base MathModel CurveModel FeeModel ConfigModel PoolModel TxModel SystemModel.
Import ListNotations.
Open Scope Z_scope.

(** state/virtual_pool.rs:827-889 with the check of lines 876-884: when a purchase reaches the price
    [stop], the quote reserve and what has been consumed of [total] must reach the threshold. *)
Fixpoint buy_in_loop_local (reserve threshold total stop : Z) (curve : list point) (cur amount out : Z) : res from_in :=
  match curve with
  | [] => Ok (mkFromIn out cur amount)
  | (p, l) :: rest =>
    if (p =? 0) || (l =? 0) then Ok (mkFromIn out cur amount)
    else
      let ref := Z.min stop p in
      if cur <? ref then
        do mx <- delta_quote_256 cur ref l Up ;;
        if amount <? mx then
          do next <- next_price_from_input cur l amount false ;;
          do o <- delta_base cur next l Down ;;
          do out' <- sadd U64_MAX out o ;;
          Ok (mkFromIn out' next 0)
        else
          do o <- delta_base cur ref l Down ;;
          do out' <- sadd U64_MAX out o ;;
          do mx' <- scast U64_MAX mx ;;
          do amount' <- ssub amount mx' ;;
          if ref =? stop then
            do consumed <- ssub total amount' ;;
            do filled <- sadd U64_MAX reserve consumed ;;
            do _ <- require (threshold <=? filled) EUndeterminedError ;;
            Ok (mkFromIn out' ref amount')
          else buy_in_loop_local reserve threshold total stop rest ref amount' out'
      else buy_in_loop_local reserve threshold total stop rest cur amount out
  end.

(** state/virtual_pool.rs:819-897 of a pool with this quote reserve, price and config. *)
Definition calc_buy_from_in_local (c : config) (reserve price amount stop : Z) : res from_in :=
  buy_in_loop_local reserve (c_threshold c) amount stop (c_curve c) price amount 0.

(** migration_handler/concentrated_liquidity.rs:79-126 with the re-validation of lines 107-124. *)
Definition migration_amounts_1_local (h : handler) (price threshold pct : Z) : res (Z * Z) :=
  do qf <- get_migration_quote_amount threshold pct ;;
  let q := fst qf in
  match h with
  | Compounding =>
    do b <- constant_product_base q price ;;
    Ok (b, q)
  | Concentrated =>
    do l <- liquidity_from_delta_quote q MIN_SQRT_PRICE price ;;
    do b <- delta_base_256 price MAX_SQRT_PRICE l Up ;;
    do _ <- require (b <=? U64_MAX) EMathOverflow ;;
    do b <- scast U64_MAX b ;;
    do i <- get_initialize_amounts MIN_SQRT_PRICE MAX_SQRT_PRICE price l ;;
    do _ <- require (snd i <=? q) EInsufficientLiquidityForMigration ;;
    Ok (b, q)
  end.

(** ix_create_config.rs:562-791, as [create_config]; the amounts to migrate with are re-validated. *)
Definition create_config_local (q : config_params) (supported quote_is_spl : bool) (now : Z)
    (quote_mint fee_claimer leftover_receiver : Z) : res config :=
  do _ <- params_validate q supported quote_is_spl now ;;
  do mig <- get_migration_threshold_price (q_threshold q) (q_start q) (q_curve q) ;;
  do _ <- require (mig <? MAX_SQRT_PRICE) EInvalidCurve ;;
  do swap256 <- get_base_token_for_swap (q_start q) mig (q_curve q) ;;
  do swap_base <- scast U64_MAX swap256 ;;
  do _ <- require (migrated_mode_ok (q_migrated_collect_mode q)) ETypeCastFailed ;;
  let h := get_migration_handler (q_migration_option q) (q_migrated_collect_mode q) in
  do am <- migration_amounts_1_local h mig (q_threshold q) (q_migration_fee_pct q) ;;
  let '(base_amount, quote_amount) := am in
  do _ <- require ((0 <? base_amount) && (0 <? swap_base)) EInvalidCurve ;;
  do _ <- (if (q_migration_option q =? 1) && (q_migrated_collect_mode q =? 2) then
             do fees <- migration_protocol_fees Compounding mig base_amount quote_amount
                          PROTOCOL_LIQUIDITY_MIGRATION_FEE_BPS ;;
             let '(fb, fq) := fees in
             do eb <- ssub base_amount fb ;;
             do eq <- ssub quote_amount fq ;;
             compounding_validate eb eq mig
           else Ok tt) ;;
  do sup <- supply_of_params q swap_base base_amount leftover_receiver ;;
  let '(flag, pre, post) := sup in
  let c := {|
    c_quote_mint := quote_mint;
    c_fee_claimer := fee_claimer;
    c_leftover_receiver := leftover_receiver;
    c_fees := to_pool_fees_config q;
    c_partner_vesting := to_liquidity_vesting_info (q_partner_vesting q);
    c_creator_vesting := to_liquidity_vesting_info (q_creator_vesting q);
    c_collect_fee_mode := q_collect_fee_mode q;
    c_migration_option := q_migration_option q;
    c_activation_type := q_activation_type q;
    c_token_decimal := q_token_decimal q;
    c_token_type := q_token_type q;
    c_partner_perm_pct := q_partner_perm_pct q;
    c_partner_liq_pct := q_partner_liq_pct q;
    c_creator_perm_pct := q_creator_perm_pct q;
    c_creator_liq_pct := q_creator_liq_pct q;
    c_migration_fee_option := q_migration_fee_option q;
    c_fixed_supply_flag := flag;
    c_creator_trading_fee_pct := q_creator_trading_fee_pct q;
    c_token_update_authority := q_token_update_authority q;
    c_migration_fee_pct := q_migration_fee_pct q;
    c_creator_migration_fee_pct := q_creator_migration_fee_pct q;
    c_swap_base_amount := swap_base;
    c_threshold := q_threshold q;
    c_base_threshold := base_amount;
    c_mig_price := mig;
    c_vesting := q_vesting q;
    c_pre_supply := pre;
    c_post_supply := post;
    c_migrated_collect_mode := q_migrated_collect_mode q;
    c_migrated_dynamic_fee := q_migrated_dynamic_fee q;
    c_migrated_pool_fee_bps := q_migrated_pool_fee_bps q;
    c_migrated_base_fee_mode := q_migrated_base_fee_mode q;
    c_first_swap_min_fee := if q_first_swap_min_fee q then 1 else 0;
    c_compounding_fee_bps := q_compounding_fee_bps q;
    c_pool_creation_fee := q_pool_creation_fee q;
    c_mc_number_of_period := q_mc_number_of_period q;
    c_mc_price_step := q_mc_price_step q;
    c_mc_expiration := q_mc_expiration q;
    c_mc_reduction := q_mc_reduction q;
    c_start := q_start q;
    c_curve := pad_curve (q_curve q) |} in
  do bps <- total_locked_bps_at c SECONDS_PER_DAY ;;
  do _ <- require (MIN_LOCKED_LIQUIDITY_BPS <=? bps) EInvalidMigrationLockedLiquidity ;;
  Ok c.

(** state/virtual_pool.rs:492-588, as [fi_of_direction] and [swap_exact_in]. *)
Definition fi_of_direction_local (c : config) (p : pool) (d : direction) (amount : Z) : res from_in :=
  match d with
  | BaseToQuote => calc_sell_from_in c (p_price p) amount
  | QuoteToBase => calc_buy_from_in_local c (p_quote p) (p_price p) amount (c_mig_price c)
  end.
Definition swap_exact_in_local (c : config) (p : pool) (amount : Z) (fm : fee_mode) (d : direction)
    (cur : Z) (eligible : bool) : res swap_result :=
  do num <- num_included c p cur amount d eligible ;;
  do f <- (if fm_on_input fm then get_fee_on_amount num amount (fm_referral fm)
           else Ok (mkFoA amount 0 0 0)) ;;
  do r <- fi_of_direction_local c p d (foa_amount f) ;;
  do _ <- require (fi_left r =? 0) EInsufficientLiquidity ;;
  do g <- (if fm_on_input fm then Ok (mkFoA (fi_out r) (foa_trading f) (foa_protocol f)
                                            (foa_referral f))
           else get_fee_on_amount num (fi_out r) (fm_referral fm)) ;;
  Ok (mkSwapResult amount (foa_amount f) (fi_left r) (foa_amount g) (fi_price r)
                   (foa_trading g) (foa_protocol g) (foa_referral g)).

(** state/virtual_pool.rs:590-722, as [swap_partial]. *)
Definition swap_partial_local (c : config) (p : pool) (amount : Z) (fm : fee_mode) (d : direction)
    (cur : Z) (eligible : bool) : res swap_result :=
  do num <- num_included c p cur amount d eligible ;;
  do f <- (if fm_on_input fm then get_fee_on_amount num amount (fm_referral fm)
           else Ok (mkFoA amount 0 0 0)) ;;
  do r <- fi_of_direction_local c p d (foa_amount f) ;;
  do k <- (if negb (fi_left r =? 0) then
             do actual <- ssub (foa_amount f) (fi_left r) ;;
             if fm_on_input fm then
               do num' <- num_excluded c p cur actual d eligible ;;
               do ie <- get_included_fee_amount num' actual ;;
               let '(incl, fee) := ie in
               do s <- split_fees fee (fm_referral fm) ;;
               let '(tr, pr, rf) := s in
               Ok (incl, actual, tr, pr, rf)
             else Ok (actual, actual, 0, 0, 0)
           else Ok (amount, foa_amount f, foa_trading f, foa_protocol f, foa_referral f)) ;;
  let '(incl, actual, tr, pr, rf) := k in
  do g <- (if fm_on_input fm then Ok (mkFoA (fi_out r) tr pr rf)
           else get_fee_on_amount num (fi_out r) (fm_referral fm)) ;;
  Ok (mkSwapResult incl actual (fi_left r) (foa_amount g) (fi_price r)
                   (foa_trading g) (foa_protocol g) (foa_referral g)).

(** swap_exact_in.rs:7-42, swap_partial_fill.rs:7-44, swap_exact_out.rs:7-46, as [process_swap]. *)
Definition process_swap_local (c : config) (p : pool) (mode a0 a1 : Z) (fm : fee_mode)
    (d : direction) (cur : Z) (eligible : bool) : res swap_result :=
  if mode =? 0 then
    do r <- swap_exact_in_local c p a0 fm d cur eligible ;;
    do _ <- require (a1 <=? sr_output r) EExceededSlippage ;;
    Ok r
  else if mode =? 1 then
    do r <- swap_partial_local c p a0 fm d cur eligible ;;
    do _ <- require (a1 <=? sr_output r) EExceededSlippage ;;
    Ok r
  else process_swap c p mode a0 a1 fm d cur eligible.

(** swap/ix_swap.rs, as [swap_full] and [do_swap]. *)
Definition do_swap_local (w : world) (a : swap_args) : res world :=
  let c := w_config w in
  let p := w_pool w in
  do _ <- require (0 <? sa_amount0 a) EAmountIsZero ;;
  do cur <- current_point c (sa_slot a) (sa_now a) ;;
  do _ <- rate_limit_check c p (w_key w) cur (sa_dir a) (sa_view a) ;;
  let eligible := first_swap_eligible c p (w_key w) (is_some (sa_referral a)) (sa_view a) in
  do _ <- require (negb (is_curve_complete p (c_threshold c))) EPoolIsCompleted ;;
  do p1 <- update_pre_swap c p (sa_now a) ;;
  do fm <- get_fee_mode (c_collect_fee_mode c) (sa_dir a) (is_some (sa_referral a)) ;;
  do r <- process_swap_local c p1 (sa_mode a) (sa_amount0 a) (sa_amount1 a) fm (sa_dir a) cur
                       eligible ;;
  do p2 <- apply_swap_result c p1 r fm (sa_dir a) (sa_now a) ;;
  do w1 <- swap_transfers (set_w_pool w p2) a fm r ;;
  finish_curve w1 (sa_now a).

(** The two operator instructions, with every key an admin (admin/auth.rs:19-22). *)
Definition create_operator_local (w : world) (addr perm : Z) : res world :=
  do _ <- require (negb (is_some (find_operator (w_operators w) addr))) EOther ;;
  do _ <- require ((0 <? perm) && (perm <? 4)) EInvalidPermission ;;
  Ok (set_w_operators w ((addr, perm) :: w_operators w)).
Definition close_operator_local (w : world) (addr : Z) : res world :=
  do _ <- require (is_some (find_operator (w_operators w) addr)) EOther ;;
  Ok (set_w_operators w (filter (fun o => negb (fst o =? addr)) (w_operators w))).

Definition exec_local (w : world) (o : op) : res world :=
  match o with
  | OSwap a => do _ <- require (args_ok o) EInvalidInput ;; do_swap_local w a
  | OCreateOperator _ addr perm => do _ <- require (args_ok o) EInvalidInput ;; create_operator_local w addr perm
  | OCloseOperator _ addr => do _ <- require (args_ok o) EInvalidInput ;; close_operator_local w addr
  | _ => exec w o
  end.
Definition step_local (w : world) (o : op) : world :=
  match exec_local w o with Ok w' => w' | Err _ => w end.
Definition run_local (w : world) (ops : list op) : world := fold_left step_local ops w.
