(** * The fees a migrated pool opens with: the data this program sends to the destination program,
    and the checks on the destination config account chosen by whoever migrates. *)
From Coq Require Import ZArith List Bool.
From Verif Require Import Base FeeModel ConfigModel PoolModel SystemModel.
Import ListNotations.
Open Scope Z_scope.

(** Borsh: an unsigned integer of [k] bytes is written with its lowest byte first. *)
Fixpoint le (k : nat) (x : Z) : list Z :=
  match k with O => [] | S k' => x mod 256 :: le k' (x / 256) end.

(** Borsh: read back [k] bytes from the front. Fails when the data is too short. *)
Fixpoint unle (k : nat) (l : list Z) : res (Z * list Z) :=
  match k with
  | O => Ok (0, l)
  | S k' => match l with
            | [] => Err EOther
            | b :: l => do r <- unle k' l ;; let '(x, l') := r in Ok (b + 256 * x, l')
            end
  end.

(** ix_create_config.rs:232-240 and state/config.rs:782-788: the market cap schedule is kept in
    the config as 16 bytes ([ConfigModel.config] has the four numbers instead). *)
Definition mc_store (number_of_period step expiration reduction : Z) : res (list Z) :=
  let data := le 2 number_of_period ++ le 2 step ++ le 4 expiration ++ le 8 reduction in
  if Nat.eqb (length data) 16 then Ok data else Err EUndeterminedError.

(** [MigratedPoolMarketCapFeeSchedulerParams::try_from_slice]: all bytes must be used.
    state/config.rs:1081-1088, 1129-1136. *)
Definition mc_load (data : list Z) : res (Z * Z * Z * Z) :=
  do a <- unle 2 data ;;
  do b <- unle 2 (snd a) ;;
  do c <- unle 4 (snd b) ;;
  do d <- unle 8 (snd c) ;;
  match snd d with
  | [] => Ok (fst a, fst b, fst c, fst d)
  | _ => Err EOther
  end.

(** The bytes stored in a config. *)
Definition mc_stored (c : config) : res (list Z) :=
  mc_store (c_mc_number_of_period c) (c_mc_price_step c) (c_mc_expiration c) (c_mc_reduction c).

(** state/config.rs:1054-1109 [build_damm_v2_base_fee_params]. The field orders are those of
    BorshFeeTimeScheduler and BorshFeeMarketCapScheduler in idls/damm_v2.json; the result must
    be exactly 27 bytes (BaseFeeParameters.data). *)
Definition build_base_fee (c : config) : res (list Z) :=
  do cliff <- to_numerator (c_migrated_pool_fee_bps c) DAMM_V2_FEE_DENOMINATOR ;;
  let mode := c_migrated_base_fee_mode c in
  do data <-
    (if (mode =? 0) || (mode =? 1) then
       Ok (le 8 cliff ++ le 2 0 ++ le 8 0 ++ le 8 0 ++ le 1 mode)
     else if (mode =? 3) || (mode =? 4) then
       do stored <- mc_stored c ;;
       do r <- mc_load stored ;;
       let '(number_of_period, step, expiration, reduction) := r in
       Ok (le 8 cliff ++ le 2 number_of_period ++ le 4 step ++ le 4 expiration
           ++ le 8 reduction ++ le 1 mode)
     else if mode =? 2 then Err EUndeterminedError
     else Err ETypeCastFailed) ;;
  if Nat.eqb (length data) 27 then Ok data else Err EUndeterminedError.

(** damm_v2 PoolFeeParameters *)
Record v2_fees := mkV2Fees {
  vf_base : list Z;
  vf_dynamic : option dynamic_fee;
  vf_compounding : Z }.

(** state/config.rs:1163-1176 [build_damm_v2_pool_fee_params] *)
Definition build_pool_fees (c : config) : res v2_fees :=
  do base <- build_base_fee c ;;
  do dyn <- migrated_dynamic_fee_params c ;;
  Ok (mkV2Fees base dyn (c_compounding_fee_bps c)).

(** The call that creates the destination pool: with the terms of a DAMM v2 config account
    ([initialize_pool]) or with terms of its own ([initialize_pool_with_dynamic_config]). *)
Inductive v2_call :=
  | CallConfig (liquidity price : Z) (start : option Z)
  | CallCustom (fees : v2_fees) (sqrt_min sqrt_max : Z) (alpha_vault : bool)
               (liquidity price : Z) (activation_type collect : Z) (start : option Z).

(** migrate_damm_v2_initialize_pool.rs:132-248 [create_pool]: which call is made, with which
    parameters. *)
Definition create_pool_call (c : config) (liquidity price : Z) : res v2_call :=
  if c_migration_fee_option c =? 6 then
    do fees <- build_pool_fees c ;;
    do collect <- to_dammv2_collect_fee_mode (c_migrated_collect_mode c) ;;
    Ok (CallCustom fees MIN_SQRT_PRICE MAX_SQRT_PRICE false liquidity price 1 collect None)
  else Ok (CallConfig liquidity price None).

(** damm_v2 Config account: the fields this program reads, and two it does not.
    The base fee is read as PodAlignedFeeTimeScheduler. Keys are numbers; 0 is the default key. *)
Record v2_config := mkV2Config {
  g_vault_key : Z;
  g_authority : Z;             (* pool_creator_authority *)
  g_cliff : Z;
  g_mode : Z;
  g_periods : Z;
  g_frequency : Z;
  g_reduction : Z;
  g_sqrt_min : Z;
  g_sqrt_max : Z;
  g_activation_type : Z;
  g_collect : Z;               (* not read *)
  g_dynamic : option dynamic_fee (* not read *) }.

(** migrate_damm_v2_initialize_pool.rs:417-494 [validate_config_key]. [authority] is the pool
    authority, the key that signs for the pools of this program. *)
Definition validate_v2_config (authority : Z) (g : v2_config) (opt : Z) : res unit :=
  do _ <-
    (if opt =? 6 then Ok tt
     else
       do _ <- (if (0 <=? g_mode g) && (g_mode g <=? 4) then Ok tt else Err ETypeCastFailed) ;;
       do _ <- require ((g_mode g =? 0) || (g_mode g =? 1)) EInvalidConfigAccount ;;
       do bps <- to_bps (g_cliff g) DAMM_V2_FEE_DENOMINATOR ;;
       do _ <- require ((g_frequency g =? 0) && (g_reduction g =? 0) && (g_periods g =? 0))
                       EInvalidConfigAccount ;;
       do _ <- migration_fee_option_validate opt bps ;;
       do _ <- require (g_sqrt_min g =? MIN_SQRT_PRICE) EInvalidConfigAccount ;;
       do _ <- require (g_sqrt_max g =? MAX_SQRT_PRICE) EInvalidConfigAccount ;;
       do _ <- require (g_vault_key g =? 0) EInvalidConfigAccount ;;
       do a <- activation_of (g_activation_type g) ;;
       match a with
       | ActTimestamp => Ok tt
       | ActSlot => Err EInvalidConfigAccount
       end) ;;
  require (g_authority g =? authority) EInvalidConfigAccount.

(** dynamic_amm Config account: the fields this program reads. *)
Record v1_config := mkV1Config {
  k_fee_num : Z; k_fee_den : Z;   (* trade_fee_numerator, trade_fee_denominator *)
  k_authority : Z;
  k_activation_duration : Z;
  k_partner_fee : Z;
  k_vault_key : Z }.

(** migrate_meteora_damm_initialize_pool.rs:119-145 [validate_config_key]. *)
Definition validate_v1_config (authority : Z) (k : v1_config) (opt : Z) : res unit :=
  do _ <- require ((0 <=? opt) && (opt <=? 6)) EInvalidMigrationFeeOption ;;
  do bps <- to_bps (k_fee_num k) (k_fee_den k) ;;
  do _ <- migration_fee_option_validate opt bps ;;
  do _ <- require (k_authority k =? authority) EInvalidConfigAccount ;;
  do _ <- require (k_activation_duration k =? 0) EInvalidConfigAccount ;;
  do _ <- require (k_partner_fee k =? 0) EInvalidConfigAccount ;;
  require (k_vault_key k =? 0) EInvalidConfigAccount.

Definition accepted (r : res unit) : bool := match r with Ok _ => true | Err _ => false end.

Definition with_config_ok (x : damm_v2_ext) (b : bool) : damm_v2_ext :=
  mkExt b (x_d1b x) (x_d1q x) (x_rbase x) (x_rquote x) (x_rliq x) (x_d2b x) (x_d2q x)
        (x_second x).

(** migrate_damm_v2_initialize_pool.rs:497-753 with the destination config account [g] in place
    of the flag of [SystemModel.migrate_v2], and with the call that creates the pool. The
    opening liquidity and price are those [migrate_v2] records for the first position. The call
    is built here after the rest; as every failure undoes everything, the order of the checks
    only decides which error is reported. *)
Definition migrate_damm_v2 (authority : Z) (w : world) (g : v2_config) (x : damm_v2_ext)
    (now : Z) : res (world * v2_call) :=
  let c := w_config w in
  do _ <- require ((0 <=? c_migration_fee_option c) && (c_migration_fee_option c <=? 6))
                  EInvalidMigrationFeeOption ;;
  do _ <- validate_v2_config authority g (c_migration_fee_option c) ;;
  do w' <- migrate_v2 w (with_config_ok x true) now ;;
  match w_positions w' with
  | [] => Err EPanic
  | first :: _ =>
    do call <- create_pool_call c (po_total first) (po_price first) ;;
    Ok (w', call)
  end.

(** migrate_meteora_damm_initialize_pool.rs:212-320 with the destination config account. *)
Definition migrate_damm_v1 (authority : Z) (w : world) (k : v1_config) (lp : Z) : res world :=
  do _ <- validate_v1_config authority k (c_migration_fee_option (w_config w)) ;;
  migrate_v1 w true lp.
