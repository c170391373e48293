(** * How the two main accounts are kept as bytes

    [PoolConfig] and [VirtualPool] are zero-copy accounts: the Rust structs are [repr(C)], so the
    account data (after the 8-byte discriminator) is the concatenation of the fields in order of
    declaration, each little-endian. The structs are declared so that no implicit padding is
    needed (anchor's [zero_copy] derives [bytemuck::Pod], which demands it); [C75_no_gaps] checks
    that. The 8-byte discriminator itself is a hash and is not modelled. *)
From Coq Require Import ZArith List Bool.
From Verif Require Import Base FeeModel ConfigModel PoolModel MigFeeModel.
Import ListNotations.
Open Scope Z_scope.

(** A stored field: its width in bytes, its alignment, its value. *)
Record slot := mkSlot { s_width : nat; s_align : nat; s_value : Z }.
Definition key (x : Z) : slot := mkSlot 32 1 x.        (* Pubkey = [u8; 32] *)
Definition n8 (x : Z) : slot := mkSlot 1 1 x.
Definition n16 (x : Z) : slot := mkSlot 2 2 x.
Definition n32 (x : Z) : slot := mkSlot 4 4 x.
Definition n64 (x : Z) : slot := mkSlot 8 8 x.
Definition n128 (x : Z) : slot := mkSlot 16 16 x.
(** A [[u8; k]] of zeros. *)
Definition gap (k : nat) : slot := mkSlot k 1 0.

Definition image (l : list slot) : list Z := concat (map (fun s => le (s_width s) (s_value s)) l).

(** What the pool account holds beside the fields of [PoolModel.pool]. *)
Record pool_links := mkLinks {
  k_config : Z; k_base_mint : Z; k_base_vault : Z; k_quote_vault : Z; k_pool_type : Z }.

(** state/fee.rs:24-34 [VolatilityTracker] *)
Definition tracker_slots (t : tracker) : list slot :=
  [ n64 (vt_last t); gap 8; n128 (vt_price_ref t); n128 (vt_va t); n128 (vt_vref t) ].

(** state/virtual_pool.rs:90-161 [VirtualPool] *)
Definition pool_slots (p : pool) (k : pool_links) : list slot :=
  tracker_slots (p_tracker p) ++
  [ key (k_config k); key (p_creator p); key (k_base_mint k); key (k_base_vault k);
    key (k_quote_vault k);
    n64 (p_base p); n64 (p_quote p); n64 (p_protocol_base p); n64 (p_protocol_quote p);
    n64 (p_partner_base p); n64 (p_partner_quote p);
    n128 (p_price p); n64 (p_activation p);
    n8 (k_pool_type k); n8 (p_is_migrated p); n8 (p_partner_surplus p); n8 (p_protocol_surplus p);
    n8 (p_progress p); n8 (p_leftover p); n8 (p_creator_surplus p); n8 (p_mig_fee_status p);
    (* virtual_pool.rs:174-183 [PoolMetrics] *)
    n64 (p_m_protocol_base p); n64 (p_m_protocol_quote p); n64 (p_m_trading_base p);
    n64 (p_m_trading_quote p);
    n64 (p_finish p); n64 (p_creator_base p); n64 (p_creator_quote p);
    n8 (p_legacy_bits p); n8 (p_creation_bits p); n8 (p_has_swap p); gap 5;
    n16 (p_mig_fee_bps p); gap 6; n64 (p_mig_base_fee p); n64 (p_mig_quote_fee p);
    n64 0; n64 0; n64 0 ].

(** state/config.rs:61-68, 225-238, 285-300 [PoolFeesConfig], [BaseFeeConfig], [DynamicFeeConfig] *)
Definition fees_slots (f : pool_fees) : list slot :=
  let b := pf_base f in let d := pf_dyn f in
  [ n64 (bf_cliff b); n64 (bf_second b); n64 (bf_third b); n16 (bf_first b); n8 (bf_mode b); gap 5;
    n8 (df_initialized d); gap 7; n32 (df_max_va d); n32 (df_vfc d); n16 (df_bin_step d);
    n16 (df_filter d); n16 (df_decay d); n16 (df_reduction d); gap 8; n128 (df_bin_step_u128 d) ].

(** state/config.rs:578-590 [LiquidityVestingInfo] *)
Definition liq_vesting_slots (v : liq_vesting) : list slot :=
  [ n8 (vi_initialized v); n8 (vi_percentage v); gap 2; n16 (vi_bps_per_period v);
    n16 (vi_periods v); n32 (vi_frequency v); n32 (vi_cliff v) ].

(** state/config.rs:332-343 [LockedVestingConfig] *)
Definition locked_vesting_slots (v : locked_vesting) : list slot :=
  [ n64 (lv_amount_per_period v); n64 (lv_cliff_duration v); n64 (lv_frequency v);
    n64 (lv_number_of_period v); n64 (lv_cliff_unlock_amount v); n64 0 ].

(** state/config.rs:679-684 [LiquidityDistributionConfig] *)
Definition point_slots (pl : point) : list slot := [ n128 (fst pl); n128 (snd pl) ].

(** state/config.rs:486-576 [PoolConfig]. [flag] is [quote_token_flag]
    ([TokenModel.token_program_flag] of the quote mint); [version] is always 0.
    [migrated_pool_base_fee_bytes] is the Borsh image of the four schedule numbers
    ([MigFeeModel.mc_store]), which has no alignment. *)
Definition config_slots (c : config) (flag : Z) : list slot :=
  [ key (c_quote_mint c); key (c_fee_claimer c); key (c_leftover_receiver c) ]
  ++ fees_slots (c_fees c)
  ++ liq_vesting_slots (c_partner_vesting c) ++ liq_vesting_slots (c_creator_vesting c)
  ++ [ gap 14; n16 0;
       n8 (c_collect_fee_mode c); n8 (c_migration_option c); n8 (c_activation_type c);
       n8 (c_token_decimal c); n8 0; n8 (c_token_type c); n8 flag;
       n8 (c_partner_perm_pct c); n8 (c_partner_liq_pct c); n8 (c_creator_perm_pct c);
       n8 (c_creator_liq_pct c); n8 (c_migration_fee_option c); n8 (c_fixed_supply_flag c);
       n8 (c_creator_trading_fee_pct c); n8 (c_token_update_authority c);
       n8 (c_migration_fee_pct c); n8 (c_creator_migration_fee_pct c); gap 7;
       n64 (c_swap_base_amount c); n64 (c_threshold c); n64 (c_base_threshold c);
       n128 (c_mig_price c) ]
  ++ locked_vesting_slots (c_vesting c)
  ++ [ n64 (c_pre_supply c); n64 (c_post_supply c);
       n8 (c_migrated_collect_mode c); n8 (c_migrated_dynamic_fee c);
       n16 (c_migrated_pool_fee_bps c); n8 (c_migrated_base_fee_mode c);
       n8 (c_first_swap_min_fee c); n16 (c_compounding_fee_bps c); n64 (c_pool_creation_fee c);
       mkSlot 2 1 (c_mc_number_of_period c); mkSlot 2 1 (c_mc_price_step c);
       mkSlot 4 1 (c_mc_expiration c); mkSlot 8 1 (c_mc_reduction c);
       n128 (c_start c) ]
  ++ flat_map point_slots (c_curve c).

(** ** Reading: what a client (or the program, on its next instruction) sees in given bytes *)
Fixpoint unles (widths : list nat) (l : list Z) : res (list Z) :=
  match widths with
  | [] => match l with [] => Ok [] | _ => Err EOther end
  | k :: ks => do r <- unle k l ;; do rest <- unles ks (snd r) ;; Ok (fst r :: rest)
  end.

Definition zero_pool : pool :=
  mkPool (mkTracker 0 0 0 0) 0 0 0 0 0 0 0 0 0 0 0 0 0 0 0 0 0 0 0 0 0 0 0 0 0 0 0 0 0.
Definition zero_links : pool_links := mkLinks 0 0 0 0 0.
Definition pool_widths : list nat := map s_width (pool_slots zero_pool zero_links).

Definition read_pool (data : list Z) : res (pool * pool_links) :=
  do l <- unles pool_widths data ;;
  match l with
  | [ last; _; ref; va; vref; config; creator; base_mint; base_vault; quote_vault; base; quote;
      protocol_base; protocol_quote; partner_base; partner_quote; price; activation; pool_type;
      is_migrated; partner_surplus; protocol_surplus; progress; leftover; creator_surplus;
      mig_fee_status; m_protocol_base; m_protocol_quote; m_trading_base; m_trading_quote; finish;
      creator_base; creator_quote; legacy_bits; creation_bits; has_swap; _; mig_fee_bps; _;
      mig_base_fee; mig_quote_fee; _; _; _ ] =>
    Ok ({| p_tracker := mkTracker last ref va vref; p_creator := creator; p_base := base;
           p_quote := quote; p_protocol_base := protocol_base; p_protocol_quote := protocol_quote;
           p_partner_base := partner_base; p_partner_quote := partner_quote;
           p_creator_base := creator_base; p_creator_quote := creator_quote; p_price := price;
           p_activation := activation; p_is_migrated := is_migrated;
           p_partner_surplus := partner_surplus; p_protocol_surplus := protocol_surplus;
           p_creator_surplus := creator_surplus; p_progress := progress; p_leftover := leftover;
           p_mig_fee_status := mig_fee_status; p_m_protocol_base := m_protocol_base;
           p_m_protocol_quote := m_protocol_quote; p_m_trading_base := m_trading_base;
           p_m_trading_quote := m_trading_quote; p_finish := finish; p_legacy_bits := legacy_bits;
           p_creation_bits := creation_bits; p_has_swap := has_swap; p_mig_fee_bps := mig_fee_bps;
           p_mig_base_fee := mig_base_fee; p_mig_quote_fee := mig_quote_fee |},
        mkLinks config base_mint base_vault quote_vault pool_type)
  | _ => Err EOther
  end.

(** The widths of the part of a config before the curve. *)
Definition head_widths : list nat :=
  [ 32; 32; 32; 8; 8; 8; 2; 1; 5; 1; 7; 4; 4; 2; 2; 2; 2; 8; 16;
    1; 1; 2; 2; 2; 4; 4; 1; 1; 2; 2; 2; 4; 4; 14; 2;
    1; 1; 1; 1; 1; 1; 1; 1; 1; 1; 1; 1; 1; 1; 1; 1; 1; 7;
    8; 8; 8; 16; 8; 8; 8; 8; 8; 8; 8; 8; 1; 1; 2; 1; 1; 2; 8; 2; 2; 4; 8; 16 ]%nat.
Definition curve_widths : list nat := repeat 16%nat 40.

Fixpoint pairs (l : list Z) : list point :=
  match l with a :: b :: rest => (a, b) :: pairs rest | _ => [] end.

Definition read_config (data : list Z) : res (config * Z) :=
  do l <- unles (head_widths ++ curve_widths) data ;;
  match l with
  | quote_mint :: fee_claimer :: leftover_receiver ::
    cliff :: second :: third :: first :: mode :: _ ::
    initialized :: _ :: max_va :: vfc :: bin_step :: filter_ :: decay :: reduction :: _ :: bin128 ::
    pv1 :: pv2 :: _ :: pv3 :: pv4 :: pv5 :: pv6 :: cv1 :: cv2 :: _ :: cv3 :: cv4 :: cv5 :: cv6 ::
    _ :: _ :: collect :: moption :: activation :: decimal :: _ :: ttype :: flag :: pperm :: pliq ::
    cperm :: cliq :: mfoption :: fixed :: ctrading :: update_auth :: mfee :: cmfee :: _ ::
    swap_base :: threshold :: base_threshold :: mig_price ::
    lv1 :: lv2 :: lv3 :: lv4 :: lv5 :: _ :: pre :: post :: mcollect :: mdynamic :: mbps :: mmode ::
    first_min :: compounding :: creation :: mc1 :: mc2 :: mc3 :: mc4 :: start :: curve =>
    Ok ({| c_quote_mint := quote_mint; c_fee_claimer := fee_claimer;
           c_leftover_receiver := leftover_receiver;
           c_fees := mkPoolFees (mkBaseFee cliff first second third mode)
                       (mkDynFee initialized max_va vfc bin_step filter_ decay reduction bin128);
           c_partner_vesting := mkLiqVesting pv1 pv2 pv3 pv4 pv5 pv6;
           c_creator_vesting := mkLiqVesting cv1 cv2 cv3 cv4 cv5 cv6;
           c_collect_fee_mode := collect; c_migration_option := moption;
           c_activation_type := activation; c_token_decimal := decimal; c_token_type := ttype;
           c_partner_perm_pct := pperm; c_partner_liq_pct := pliq; c_creator_perm_pct := cperm;
           c_creator_liq_pct := cliq; c_migration_fee_option := mfoption;
           c_fixed_supply_flag := fixed; c_creator_trading_fee_pct := ctrading;
           c_token_update_authority := update_auth; c_migration_fee_pct := mfee;
           c_creator_migration_fee_pct := cmfee; c_swap_base_amount := swap_base;
           c_threshold := threshold; c_base_threshold := base_threshold; c_mig_price := mig_price;
           c_vesting := mkLockedVesting lv1 lv2 lv3 lv4 lv5; c_pre_supply := pre;
           c_post_supply := post; c_migrated_collect_mode := mcollect;
           c_migrated_dynamic_fee := mdynamic; c_migrated_pool_fee_bps := mbps;
           c_migrated_base_fee_mode := mmode; c_first_swap_min_fee := first_min;
           c_compounding_fee_bps := compounding; c_pool_creation_fee := creation;
           c_mc_number_of_period := mc1; c_mc_price_step := mc2; c_mc_expiration := mc3;
           c_mc_reduction := mc4; c_start := start; c_curve := pairs curve |}, flag)
  | _ => Err EOther
  end.
