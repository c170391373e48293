(** * Model of src/state/virtual_pool.rs: the pool account, the swap computations and the
      fee and surplus accounting. *)
From Coq Require Import ZArith List Bool.
From Verif Require Import Base MathModel CurveModel FeeModel ConfigModel.
Import ListNotations.
Open Scope Z_scope.

(** state/virtual_pool.rs:90-161 [VirtualPool]. The addresses of the config, mints and vaults
    and the paddings are omitted: the model has one pool with its own vaults. The metrics
    struct (174-184) is flattened. *)
Record pool := mkPool {
  p_tracker : tracker;
  p_creator : Z;
  p_base : Z;                 (* base_reserve *)
  p_quote : Z;                (* quote_reserve *)
  p_protocol_base : Z;
  p_protocol_quote : Z;
  p_partner_base : Z;
  p_partner_quote : Z;
  p_creator_base : Z;
  p_creator_quote : Z;
  p_price : Z;                (* sqrt_price *)
  p_activation : Z;
  p_is_migrated : Z;
  p_partner_surplus : Z;      (* is_partner_withdraw_surplus *)
  p_protocol_surplus : Z;
  p_creator_surplus : Z;
  p_progress : Z;             (* migration_progress *)
  p_leftover : Z;             (* is_withdraw_leftover *)
  p_mig_fee_status : Z;       (* migration_fee_withdraw_status *)
  p_m_protocol_base : Z;      (* metrics *)
  p_m_protocol_quote : Z;
  p_m_trading_base : Z;
  p_m_trading_quote : Z;
  p_finish : Z;               (* finish_curve_timestamp *)
  p_legacy_bits : Z;          (* legacy_creation_fee_bits *)
  p_creation_bits : Z;        (* creation_fee_bits *)
  p_has_swap : Z;
  p_mig_fee_bps : Z;          (* protocol_liquidity_migration_fee_bps *)
  p_mig_base_fee : Z;         (* protocol_migration_base_fee_amount *)
  p_mig_quote_fee : Z
}.

(** state/virtual_pool.rs:28-70 [MigrationProgress] *)
Definition PreBondingCurve : Z := 0.
Definition PostBondingCurve : Z := 1.
Definition LockedVesting : Z := 2.
Definition CreatedPool : Z := 3.

(** state/virtual_pool.rs:165-172 masks *)
Definition PARTNER_MIGRATION_FEE_MASK : Z := 4.
Definition CREATOR_MIGRATION_FEE_MASK : Z := 2.
Definition LEGACY_CHARGED_MASK : Z := 1.
Definition LEGACY_CLAIMED_MASK : Z := 2.
Definition PARTNER_CREATION_FEE_MASK : Z := 2.
Definition PROTOCOL_CREATION_FEE_MASK : Z := 1.

(** Rust's [&mut] updates: one functional setter per field. *)
Definition set_tracker (p : pool) (v : tracker) : pool :=
  mkPool v (p_creator p) (p_base p) (p_quote p) (p_protocol_base p) (p_protocol_quote p) (p_partner_base p) (p_partner_quote p) (p_creator_base p) (p_creator_quote p) (p_price p) (p_activation p) (p_is_migrated p) (p_partner_surplus p) (p_protocol_surplus p) (p_creator_surplus p) (p_progress p) (p_leftover p) (p_mig_fee_status p) (p_m_protocol_base p) (p_m_protocol_quote p) (p_m_trading_base p) (p_m_trading_quote p) (p_finish p) (p_legacy_bits p) (p_creation_bits p) (p_has_swap p) (p_mig_fee_bps p) (p_mig_base_fee p) (p_mig_quote_fee p).
Definition set_creator (p : pool) (v : Z) : pool :=
  mkPool (p_tracker p) v (p_base p) (p_quote p) (p_protocol_base p) (p_protocol_quote p) (p_partner_base p) (p_partner_quote p) (p_creator_base p) (p_creator_quote p) (p_price p) (p_activation p) (p_is_migrated p) (p_partner_surplus p) (p_protocol_surplus p) (p_creator_surplus p) (p_progress p) (p_leftover p) (p_mig_fee_status p) (p_m_protocol_base p) (p_m_protocol_quote p) (p_m_trading_base p) (p_m_trading_quote p) (p_finish p) (p_legacy_bits p) (p_creation_bits p) (p_has_swap p) (p_mig_fee_bps p) (p_mig_base_fee p) (p_mig_quote_fee p).
Definition set_base (p : pool) (v : Z) : pool :=
  mkPool (p_tracker p) (p_creator p) v (p_quote p) (p_protocol_base p) (p_protocol_quote p) (p_partner_base p) (p_partner_quote p) (p_creator_base p) (p_creator_quote p) (p_price p) (p_activation p) (p_is_migrated p) (p_partner_surplus p) (p_protocol_surplus p) (p_creator_surplus p) (p_progress p) (p_leftover p) (p_mig_fee_status p) (p_m_protocol_base p) (p_m_protocol_quote p) (p_m_trading_base p) (p_m_trading_quote p) (p_finish p) (p_legacy_bits p) (p_creation_bits p) (p_has_swap p) (p_mig_fee_bps p) (p_mig_base_fee p) (p_mig_quote_fee p).
Definition set_quote (p : pool) (v : Z) : pool :=
  mkPool (p_tracker p) (p_creator p) (p_base p) v (p_protocol_base p) (p_protocol_quote p) (p_partner_base p) (p_partner_quote p) (p_creator_base p) (p_creator_quote p) (p_price p) (p_activation p) (p_is_migrated p) (p_partner_surplus p) (p_protocol_surplus p) (p_creator_surplus p) (p_progress p) (p_leftover p) (p_mig_fee_status p) (p_m_protocol_base p) (p_m_protocol_quote p) (p_m_trading_base p) (p_m_trading_quote p) (p_finish p) (p_legacy_bits p) (p_creation_bits p) (p_has_swap p) (p_mig_fee_bps p) (p_mig_base_fee p) (p_mig_quote_fee p).
Definition set_protocol_base (p : pool) (v : Z) : pool :=
  mkPool (p_tracker p) (p_creator p) (p_base p) (p_quote p) v (p_protocol_quote p) (p_partner_base p) (p_partner_quote p) (p_creator_base p) (p_creator_quote p) (p_price p) (p_activation p) (p_is_migrated p) (p_partner_surplus p) (p_protocol_surplus p) (p_creator_surplus p) (p_progress p) (p_leftover p) (p_mig_fee_status p) (p_m_protocol_base p) (p_m_protocol_quote p) (p_m_trading_base p) (p_m_trading_quote p) (p_finish p) (p_legacy_bits p) (p_creation_bits p) (p_has_swap p) (p_mig_fee_bps p) (p_mig_base_fee p) (p_mig_quote_fee p).
Definition set_protocol_quote (p : pool) (v : Z) : pool :=
  mkPool (p_tracker p) (p_creator p) (p_base p) (p_quote p) (p_protocol_base p) v (p_partner_base p) (p_partner_quote p) (p_creator_base p) (p_creator_quote p) (p_price p) (p_activation p) (p_is_migrated p) (p_partner_surplus p) (p_protocol_surplus p) (p_creator_surplus p) (p_progress p) (p_leftover p) (p_mig_fee_status p) (p_m_protocol_base p) (p_m_protocol_quote p) (p_m_trading_base p) (p_m_trading_quote p) (p_finish p) (p_legacy_bits p) (p_creation_bits p) (p_has_swap p) (p_mig_fee_bps p) (p_mig_base_fee p) (p_mig_quote_fee p).
Definition set_partner_base (p : pool) (v : Z) : pool :=
  mkPool (p_tracker p) (p_creator p) (p_base p) (p_quote p) (p_protocol_base p) (p_protocol_quote p) v (p_partner_quote p) (p_creator_base p) (p_creator_quote p) (p_price p) (p_activation p) (p_is_migrated p) (p_partner_surplus p) (p_protocol_surplus p) (p_creator_surplus p) (p_progress p) (p_leftover p) (p_mig_fee_status p) (p_m_protocol_base p) (p_m_protocol_quote p) (p_m_trading_base p) (p_m_trading_quote p) (p_finish p) (p_legacy_bits p) (p_creation_bits p) (p_has_swap p) (p_mig_fee_bps p) (p_mig_base_fee p) (p_mig_quote_fee p).
Definition set_partner_quote (p : pool) (v : Z) : pool :=
  mkPool (p_tracker p) (p_creator p) (p_base p) (p_quote p) (p_protocol_base p) (p_protocol_quote p) (p_partner_base p) v (p_creator_base p) (p_creator_quote p) (p_price p) (p_activation p) (p_is_migrated p) (p_partner_surplus p) (p_protocol_surplus p) (p_creator_surplus p) (p_progress p) (p_leftover p) (p_mig_fee_status p) (p_m_protocol_base p) (p_m_protocol_quote p) (p_m_trading_base p) (p_m_trading_quote p) (p_finish p) (p_legacy_bits p) (p_creation_bits p) (p_has_swap p) (p_mig_fee_bps p) (p_mig_base_fee p) (p_mig_quote_fee p).
Definition set_creator_base (p : pool) (v : Z) : pool :=
  mkPool (p_tracker p) (p_creator p) (p_base p) (p_quote p) (p_protocol_base p) (p_protocol_quote p) (p_partner_base p) (p_partner_quote p) v (p_creator_quote p) (p_price p) (p_activation p) (p_is_migrated p) (p_partner_surplus p) (p_protocol_surplus p) (p_creator_surplus p) (p_progress p) (p_leftover p) (p_mig_fee_status p) (p_m_protocol_base p) (p_m_protocol_quote p) (p_m_trading_base p) (p_m_trading_quote p) (p_finish p) (p_legacy_bits p) (p_creation_bits p) (p_has_swap p) (p_mig_fee_bps p) (p_mig_base_fee p) (p_mig_quote_fee p).
Definition set_creator_quote (p : pool) (v : Z) : pool :=
  mkPool (p_tracker p) (p_creator p) (p_base p) (p_quote p) (p_protocol_base p) (p_protocol_quote p) (p_partner_base p) (p_partner_quote p) (p_creator_base p) v (p_price p) (p_activation p) (p_is_migrated p) (p_partner_surplus p) (p_protocol_surplus p) (p_creator_surplus p) (p_progress p) (p_leftover p) (p_mig_fee_status p) (p_m_protocol_base p) (p_m_protocol_quote p) (p_m_trading_base p) (p_m_trading_quote p) (p_finish p) (p_legacy_bits p) (p_creation_bits p) (p_has_swap p) (p_mig_fee_bps p) (p_mig_base_fee p) (p_mig_quote_fee p).
Definition set_price (p : pool) (v : Z) : pool :=
  mkPool (p_tracker p) (p_creator p) (p_base p) (p_quote p) (p_protocol_base p) (p_protocol_quote p) (p_partner_base p) (p_partner_quote p) (p_creator_base p) (p_creator_quote p) v (p_activation p) (p_is_migrated p) (p_partner_surplus p) (p_protocol_surplus p) (p_creator_surplus p) (p_progress p) (p_leftover p) (p_mig_fee_status p) (p_m_protocol_base p) (p_m_protocol_quote p) (p_m_trading_base p) (p_m_trading_quote p) (p_finish p) (p_legacy_bits p) (p_creation_bits p) (p_has_swap p) (p_mig_fee_bps p) (p_mig_base_fee p) (p_mig_quote_fee p).
Definition set_activation (p : pool) (v : Z) : pool :=
  mkPool (p_tracker p) (p_creator p) (p_base p) (p_quote p) (p_protocol_base p) (p_protocol_quote p) (p_partner_base p) (p_partner_quote p) (p_creator_base p) (p_creator_quote p) (p_price p) v (p_is_migrated p) (p_partner_surplus p) (p_protocol_surplus p) (p_creator_surplus p) (p_progress p) (p_leftover p) (p_mig_fee_status p) (p_m_protocol_base p) (p_m_protocol_quote p) (p_m_trading_base p) (p_m_trading_quote p) (p_finish p) (p_legacy_bits p) (p_creation_bits p) (p_has_swap p) (p_mig_fee_bps p) (p_mig_base_fee p) (p_mig_quote_fee p).
Definition set_is_migrated (p : pool) (v : Z) : pool :=
  mkPool (p_tracker p) (p_creator p) (p_base p) (p_quote p) (p_protocol_base p) (p_protocol_quote p) (p_partner_base p) (p_partner_quote p) (p_creator_base p) (p_creator_quote p) (p_price p) (p_activation p) v (p_partner_surplus p) (p_protocol_surplus p) (p_creator_surplus p) (p_progress p) (p_leftover p) (p_mig_fee_status p) (p_m_protocol_base p) (p_m_protocol_quote p) (p_m_trading_base p) (p_m_trading_quote p) (p_finish p) (p_legacy_bits p) (p_creation_bits p) (p_has_swap p) (p_mig_fee_bps p) (p_mig_base_fee p) (p_mig_quote_fee p).
Definition set_partner_surplus (p : pool) (v : Z) : pool :=
  mkPool (p_tracker p) (p_creator p) (p_base p) (p_quote p) (p_protocol_base p) (p_protocol_quote p) (p_partner_base p) (p_partner_quote p) (p_creator_base p) (p_creator_quote p) (p_price p) (p_activation p) (p_is_migrated p) v (p_protocol_surplus p) (p_creator_surplus p) (p_progress p) (p_leftover p) (p_mig_fee_status p) (p_m_protocol_base p) (p_m_protocol_quote p) (p_m_trading_base p) (p_m_trading_quote p) (p_finish p) (p_legacy_bits p) (p_creation_bits p) (p_has_swap p) (p_mig_fee_bps p) (p_mig_base_fee p) (p_mig_quote_fee p).
Definition set_protocol_surplus (p : pool) (v : Z) : pool :=
  mkPool (p_tracker p) (p_creator p) (p_base p) (p_quote p) (p_protocol_base p) (p_protocol_quote p) (p_partner_base p) (p_partner_quote p) (p_creator_base p) (p_creator_quote p) (p_price p) (p_activation p) (p_is_migrated p) (p_partner_surplus p) v (p_creator_surplus p) (p_progress p) (p_leftover p) (p_mig_fee_status p) (p_m_protocol_base p) (p_m_protocol_quote p) (p_m_trading_base p) (p_m_trading_quote p) (p_finish p) (p_legacy_bits p) (p_creation_bits p) (p_has_swap p) (p_mig_fee_bps p) (p_mig_base_fee p) (p_mig_quote_fee p).
Definition set_creator_surplus (p : pool) (v : Z) : pool :=
  mkPool (p_tracker p) (p_creator p) (p_base p) (p_quote p) (p_protocol_base p) (p_protocol_quote p) (p_partner_base p) (p_partner_quote p) (p_creator_base p) (p_creator_quote p) (p_price p) (p_activation p) (p_is_migrated p) (p_partner_surplus p) (p_protocol_surplus p) v (p_progress p) (p_leftover p) (p_mig_fee_status p) (p_m_protocol_base p) (p_m_protocol_quote p) (p_m_trading_base p) (p_m_trading_quote p) (p_finish p) (p_legacy_bits p) (p_creation_bits p) (p_has_swap p) (p_mig_fee_bps p) (p_mig_base_fee p) (p_mig_quote_fee p).
Definition set_progress (p : pool) (v : Z) : pool :=
  mkPool (p_tracker p) (p_creator p) (p_base p) (p_quote p) (p_protocol_base p) (p_protocol_quote p) (p_partner_base p) (p_partner_quote p) (p_creator_base p) (p_creator_quote p) (p_price p) (p_activation p) (p_is_migrated p) (p_partner_surplus p) (p_protocol_surplus p) (p_creator_surplus p) v (p_leftover p) (p_mig_fee_status p) (p_m_protocol_base p) (p_m_protocol_quote p) (p_m_trading_base p) (p_m_trading_quote p) (p_finish p) (p_legacy_bits p) (p_creation_bits p) (p_has_swap p) (p_mig_fee_bps p) (p_mig_base_fee p) (p_mig_quote_fee p).
Definition set_leftover (p : pool) (v : Z) : pool :=
  mkPool (p_tracker p) (p_creator p) (p_base p) (p_quote p) (p_protocol_base p) (p_protocol_quote p) (p_partner_base p) (p_partner_quote p) (p_creator_base p) (p_creator_quote p) (p_price p) (p_activation p) (p_is_migrated p) (p_partner_surplus p) (p_protocol_surplus p) (p_creator_surplus p) (p_progress p) v (p_mig_fee_status p) (p_m_protocol_base p) (p_m_protocol_quote p) (p_m_trading_base p) (p_m_trading_quote p) (p_finish p) (p_legacy_bits p) (p_creation_bits p) (p_has_swap p) (p_mig_fee_bps p) (p_mig_base_fee p) (p_mig_quote_fee p).
Definition set_mig_fee_status (p : pool) (v : Z) : pool :=
  mkPool (p_tracker p) (p_creator p) (p_base p) (p_quote p) (p_protocol_base p) (p_protocol_quote p) (p_partner_base p) (p_partner_quote p) (p_creator_base p) (p_creator_quote p) (p_price p) (p_activation p) (p_is_migrated p) (p_partner_surplus p) (p_protocol_surplus p) (p_creator_surplus p) (p_progress p) (p_leftover p) v (p_m_protocol_base p) (p_m_protocol_quote p) (p_m_trading_base p) (p_m_trading_quote p) (p_finish p) (p_legacy_bits p) (p_creation_bits p) (p_has_swap p) (p_mig_fee_bps p) (p_mig_base_fee p) (p_mig_quote_fee p).
Definition set_m_protocol_base (p : pool) (v : Z) : pool :=
  mkPool (p_tracker p) (p_creator p) (p_base p) (p_quote p) (p_protocol_base p) (p_protocol_quote p) (p_partner_base p) (p_partner_quote p) (p_creator_base p) (p_creator_quote p) (p_price p) (p_activation p) (p_is_migrated p) (p_partner_surplus p) (p_protocol_surplus p) (p_creator_surplus p) (p_progress p) (p_leftover p) (p_mig_fee_status p) v (p_m_protocol_quote p) (p_m_trading_base p) (p_m_trading_quote p) (p_finish p) (p_legacy_bits p) (p_creation_bits p) (p_has_swap p) (p_mig_fee_bps p) (p_mig_base_fee p) (p_mig_quote_fee p).
Definition set_m_protocol_quote (p : pool) (v : Z) : pool :=
  mkPool (p_tracker p) (p_creator p) (p_base p) (p_quote p) (p_protocol_base p) (p_protocol_quote p) (p_partner_base p) (p_partner_quote p) (p_creator_base p) (p_creator_quote p) (p_price p) (p_activation p) (p_is_migrated p) (p_partner_surplus p) (p_protocol_surplus p) (p_creator_surplus p) (p_progress p) (p_leftover p) (p_mig_fee_status p) (p_m_protocol_base p) v (p_m_trading_base p) (p_m_trading_quote p) (p_finish p) (p_legacy_bits p) (p_creation_bits p) (p_has_swap p) (p_mig_fee_bps p) (p_mig_base_fee p) (p_mig_quote_fee p).
Definition set_m_trading_base (p : pool) (v : Z) : pool :=
  mkPool (p_tracker p) (p_creator p) (p_base p) (p_quote p) (p_protocol_base p) (p_protocol_quote p) (p_partner_base p) (p_partner_quote p) (p_creator_base p) (p_creator_quote p) (p_price p) (p_activation p) (p_is_migrated p) (p_partner_surplus p) (p_protocol_surplus p) (p_creator_surplus p) (p_progress p) (p_leftover p) (p_mig_fee_status p) (p_m_protocol_base p) (p_m_protocol_quote p) v (p_m_trading_quote p) (p_finish p) (p_legacy_bits p) (p_creation_bits p) (p_has_swap p) (p_mig_fee_bps p) (p_mig_base_fee p) (p_mig_quote_fee p).
Definition set_m_trading_quote (p : pool) (v : Z) : pool :=
  mkPool (p_tracker p) (p_creator p) (p_base p) (p_quote p) (p_protocol_base p) (p_protocol_quote p) (p_partner_base p) (p_partner_quote p) (p_creator_base p) (p_creator_quote p) (p_price p) (p_activation p) (p_is_migrated p) (p_partner_surplus p) (p_protocol_surplus p) (p_creator_surplus p) (p_progress p) (p_leftover p) (p_mig_fee_status p) (p_m_protocol_base p) (p_m_protocol_quote p) (p_m_trading_base p) v (p_finish p) (p_legacy_bits p) (p_creation_bits p) (p_has_swap p) (p_mig_fee_bps p) (p_mig_base_fee p) (p_mig_quote_fee p).
Definition set_finish (p : pool) (v : Z) : pool :=
  mkPool (p_tracker p) (p_creator p) (p_base p) (p_quote p) (p_protocol_base p) (p_protocol_quote p) (p_partner_base p) (p_partner_quote p) (p_creator_base p) (p_creator_quote p) (p_price p) (p_activation p) (p_is_migrated p) (p_partner_surplus p) (p_protocol_surplus p) (p_creator_surplus p) (p_progress p) (p_leftover p) (p_mig_fee_status p) (p_m_protocol_base p) (p_m_protocol_quote p) (p_m_trading_base p) (p_m_trading_quote p) v (p_legacy_bits p) (p_creation_bits p) (p_has_swap p) (p_mig_fee_bps p) (p_mig_base_fee p) (p_mig_quote_fee p).
Definition set_legacy_bits (p : pool) (v : Z) : pool :=
  mkPool (p_tracker p) (p_creator p) (p_base p) (p_quote p) (p_protocol_base p) (p_protocol_quote p) (p_partner_base p) (p_partner_quote p) (p_creator_base p) (p_creator_quote p) (p_price p) (p_activation p) (p_is_migrated p) (p_partner_surplus p) (p_protocol_surplus p) (p_creator_surplus p) (p_progress p) (p_leftover p) (p_mig_fee_status p) (p_m_protocol_base p) (p_m_protocol_quote p) (p_m_trading_base p) (p_m_trading_quote p) (p_finish p) v (p_creation_bits p) (p_has_swap p) (p_mig_fee_bps p) (p_mig_base_fee p) (p_mig_quote_fee p).
Definition set_creation_bits (p : pool) (v : Z) : pool :=
  mkPool (p_tracker p) (p_creator p) (p_base p) (p_quote p) (p_protocol_base p) (p_protocol_quote p) (p_partner_base p) (p_partner_quote p) (p_creator_base p) (p_creator_quote p) (p_price p) (p_activation p) (p_is_migrated p) (p_partner_surplus p) (p_protocol_surplus p) (p_creator_surplus p) (p_progress p) (p_leftover p) (p_mig_fee_status p) (p_m_protocol_base p) (p_m_protocol_quote p) (p_m_trading_base p) (p_m_trading_quote p) (p_finish p) (p_legacy_bits p) v (p_has_swap p) (p_mig_fee_bps p) (p_mig_base_fee p) (p_mig_quote_fee p).
Definition set_has_swap (p : pool) (v : Z) : pool :=
  mkPool (p_tracker p) (p_creator p) (p_base p) (p_quote p) (p_protocol_base p) (p_protocol_quote p) (p_partner_base p) (p_partner_quote p) (p_creator_base p) (p_creator_quote p) (p_price p) (p_activation p) (p_is_migrated p) (p_partner_surplus p) (p_protocol_surplus p) (p_creator_surplus p) (p_progress p) (p_leftover p) (p_mig_fee_status p) (p_m_protocol_base p) (p_m_protocol_quote p) (p_m_trading_base p) (p_m_trading_quote p) (p_finish p) (p_legacy_bits p) (p_creation_bits p) v (p_mig_fee_bps p) (p_mig_base_fee p) (p_mig_quote_fee p).
Definition set_mig_fee_bps (p : pool) (v : Z) : pool :=
  mkPool (p_tracker p) (p_creator p) (p_base p) (p_quote p) (p_protocol_base p) (p_protocol_quote p) (p_partner_base p) (p_partner_quote p) (p_creator_base p) (p_creator_quote p) (p_price p) (p_activation p) (p_is_migrated p) (p_partner_surplus p) (p_protocol_surplus p) (p_creator_surplus p) (p_progress p) (p_leftover p) (p_mig_fee_status p) (p_m_protocol_base p) (p_m_protocol_quote p) (p_m_trading_base p) (p_m_trading_quote p) (p_finish p) (p_legacy_bits p) (p_creation_bits p) (p_has_swap p) v (p_mig_base_fee p) (p_mig_quote_fee p).
Definition set_mig_base_fee (p : pool) (v : Z) : pool :=
  mkPool (p_tracker p) (p_creator p) (p_base p) (p_quote p) (p_protocol_base p) (p_protocol_quote p) (p_partner_base p) (p_partner_quote p) (p_creator_base p) (p_creator_quote p) (p_price p) (p_activation p) (p_is_migrated p) (p_partner_surplus p) (p_protocol_surplus p) (p_creator_surplus p) (p_progress p) (p_leftover p) (p_mig_fee_status p) (p_m_protocol_base p) (p_m_protocol_quote p) (p_m_trading_base p) (p_m_trading_quote p) (p_finish p) (p_legacy_bits p) (p_creation_bits p) (p_has_swap p) (p_mig_fee_bps p) v (p_mig_quote_fee p).
Definition set_mig_quote_fee (p : pool) (v : Z) : pool :=
  mkPool (p_tracker p) (p_creator p) (p_base p) (p_quote p) (p_protocol_base p) (p_protocol_quote p) (p_partner_base p) (p_partner_quote p) (p_creator_base p) (p_creator_quote p) (p_price p) (p_activation p) (p_is_migrated p) (p_partner_surplus p) (p_protocol_surplus p) (p_creator_surplus p) (p_progress p) (p_leftover p) (p_mig_fee_status p) (p_m_protocol_base p) (p_m_protocol_quote p) (p_m_trading_base p) (p_m_trading_quote p) (p_finish p) (p_legacy_bits p) (p_creation_bits p) (p_has_swap p) (p_mig_fee_bps p) (p_mig_base_fee p) v.

(** state/virtual_pool.rs:203-230 [initialize]: everything else is zeroed account data. *)
Definition pool_init (creator price activation base_reserve mig_fee_bps : Z) : pool :=
  mkPool (mkTracker 0 0 0 0) creator base_reserve 0 0 0 0 0 0 0 price activation
         0 0 0 0 0 0 0 0 0 0 0 0 0 0 0 mig_fee_bps 0 0.

(** ** Swap loops *)

(** state/virtual_pool.rs:1205-1215, 1228-1242: results of the curve computations. *)
Record from_in := mkFromIn { fi_out : Z; fi_price : Z; fi_left : Z }.
Record from_out := mkFromOut { fo_in : Z; fo_price : Z }.

(** state/virtual_pool.rs:827-889: the loop of [calculate_quote_to_base_from_amount_in]. *)
Fixpoint buy_in_loop (stop : Z) (curve : list point) (cur amount out : Z) : res from_in :=
  match curve with
  | [] => Ok (mkFromIn out cur amount)
  | (p, l) :: rest =>
    if (p =? 0) || (l =? 0) then Ok (mkFromIn out cur amount)
    else
      let ref := Z.min stop p in
      if cur <? ref then
        do mx <- delta_quote_256 cur ref l Up ;;
        if amount <? mx then
          do next <- next_price_from_input cur l amount false ;;
          do o <- delta_base cur next l Down ;;
          do out' <- sadd U64_MAX out o ;;
          Ok (mkFromIn out' next 0)
        else
          do o <- delta_base cur ref l Down ;;
          do out' <- sadd U64_MAX out o ;;
          do mx' <- scast U64_MAX mx ;;
          do amount' <- ssub amount mx' ;;
          if ref =? stop then Ok (mkFromIn out' ref amount')
          else buy_in_loop stop rest ref amount' out'
      else buy_in_loop stop rest cur amount out
  end.

(** state/virtual_pool.rs:819-897 *)
Definition calc_buy_from_in (c : config) (price amount stop : Z) : res from_in :=
  buy_in_loop stop (c_curve c) price amount 0.

(** state/virtual_pool.rs:435-480: the loop of [calculate_quote_to_base_from_amount_out];
    result is (price, amount left, total input). *)
Fixpoint buy_out_loop (curve : list point) (cur amount inp : Z) : res (Z * Z * Z) :=
  match curve with
  | [] => Ok (cur, amount, inp)
  | (p, l) :: rest =>
    if (p =? 0) || (l =? 0) then Ok (cur, amount, inp)
    else if cur <? p then
      do mx <- delta_base_256 cur p l Down ;;
      if amount <? mx then
        do next <- next_price_from_output cur l amount false ;;
        do i <- delta_quote cur next l Up ;;
        do inp' <- sadd U64_MAX inp i ;;
        Ok (next, 0, inp')
      else
        do i <- delta_quote cur p l Up ;;
        do inp' <- sadd U64_MAX inp i ;;
        do mx' <- scast U64_MAX mx ;;
        do amount' <- ssub amount mx' ;;
        buy_out_loop rest p amount' inp'
    else buy_out_loop rest cur amount inp
  end.

(** state/virtual_pool.rs:426-490 *)
Definition calc_buy_from_out (c : config) (price amount : Z) : res from_out :=
  do r <- buy_out_loop (c_curve c) price amount 0 ;;
  let '(cur, lft, inp) := r in
  do _ <- require (lft =? 0) EAmountLeftIsNotZero ;;
  Ok (mkFromOut inp cur).

(** state/virtual_pool.rs:345-346, 733-734 [for i in (0..curve.len() - 1).rev()]: the triples
    (curve[i].sqrt_price, curve[i].liquidity, curve[i+1].liquidity) in increasing order of i;
    the loops run over the reversed list. *)
Fixpoint segments (curve : list point) : list (Z * Z * Z) :=
  match curve with
  | (p, l) :: (((_, l') :: _) as rest) => (p, l, l') :: segments rest
  | _ => []
  end.

(** state/virtual_pool.rs:734-780: the loop of [calculate_base_to_quote_from_amount_in].
    Early [break] leaves amount_left = 0. *)
Fixpoint sell_in_loop (segs : list (Z * Z * Z)) (cur amount out : Z) : res from_in :=
  match segs with
  | [] => Ok (mkFromIn out cur amount)
  | (p, l, l') :: rest =>
    if (p =? 0) || (l =? 0) then sell_in_loop rest cur amount out
    else if p <? cur then
      do mx <- delta_base_256 p cur l' Up ;;
      if amount <? mx then
        do next <- next_price_from_input cur l' amount true ;;
        do o <- delta_quote next cur l' Down ;;
        do out' <- sadd U64_MAX out o ;;
        Ok (mkFromIn out' next 0)
      else
        do o <- delta_quote p cur l' Down ;;
        do out' <- sadd U64_MAX out o ;;
        do mx' <- scast U64_MAX mx ;;
        do amount' <- ssub amount mx' ;;
        sell_in_loop rest p amount' out'
    else sell_in_loop rest cur amount out
  end.

(** [config.curve[0].liquidity] *)
Definition first_liquidity (c : config) : Z :=
  match c_curve c with [] => 0 | (_, l) :: _ => l end.

(** state/virtual_pool.rs:724-817 *)
Definition calc_sell_from_in (c : config) (price amount : Z) : res from_in :=
  do r <- sell_in_loop (rev (segments (c_curve c))) price amount 0 ;;
  if fi_left r =? 0 then Ok r
  else
    let cur := fi_price r in
    let l0 := first_liquidity c in
    do next <- next_price_from_input cur l0 (fi_left r) true ;;
    do nl <- (if next <? c_start c then
                do i <- delta_base (c_start c) cur l0 Up ;;
                do lft <- ssub (fi_left r) i ;;
                Ok (c_start c, lft)
              else Ok (next, 0)) ;;
    let '(next', lft) := nl in
    do o <- delta_quote next' cur l0 Down ;;
    do out' <- sadd U64_MAX (fi_out r) o ;;
    Ok (mkFromIn out' next' lft).

(** state/virtual_pool.rs:345-388: the loop of [calculate_base_to_quote_from_amount_out];
    [max_amount_out.try_into().unwrap()] panics when it does not fit u64. *)
Fixpoint sell_out_loop (segs : list (Z * Z * Z)) (cur amount inp : Z) : res (Z * Z * Z) :=
  match segs with
  | [] => Ok (cur, amount, inp)
  | (p, l, l') :: rest =>
    if (p =? 0) || (l =? 0) then sell_out_loop rest cur amount inp
    else if p <? cur then
      do mx <- delta_quote_256 p cur l' Down ;;
      if amount <? mx then
        do next <- next_price_from_output cur l' amount true ;;
        do i <- delta_base next cur l' Up ;;
        do inp' <- sadd U64_MAX inp i ;;
        Ok (next, 0, inp')
      else
        do i <- delta_base p cur l' Up ;;
        do inp' <- sadd U64_MAX inp i ;;
        do _ <- require (mx <=? U64_MAX) EPanic ;;
        do amount' <- ssub amount mx ;;
        sell_out_loop rest p amount' inp'
    else sell_out_loop rest cur amount inp
  end.

(** state/virtual_pool.rs:336-424 *)
Definition calc_sell_from_out (c : config) (price amount : Z) : res from_out :=
  do r <- sell_out_loop (rev (segments (c_curve c))) price amount 0 ;;
  let '(cur, lft, inp) := r in
  if lft =? 0 then Ok (mkFromOut inp cur)
  else
    let l0 := first_liquidity c in
    do mx <- delta_quote_256 (c_start c) cur l0 Down ;;
    do _ <- require (lft <=? mx) EInsufficientLiquidity ;;
    do next <- next_price_from_output cur l0 lft true ;;
    do _ <- require (c_start c <=? next) EInsufficientLiquidity ;;
    do i <- delta_base next cur l0 Up ;;
    do inp' <- sadd U64_MAX inp i ;;
    Ok (mkFromOut inp' next).

(** ** The three swap modes *)

(** state/virtual_pool.rs:1228-1242 [SwapResult2] *)
Record swap_result := mkSwapResult {
  sr_included : Z;   (* included_fee_input_amount *)
  sr_excluded : Z;   (* excluded_fee_input_amount = SwapResult.actual_input_amount *)
  sr_left : Z;       (* amount_left *)
  sr_output : Z;
  sr_price : Z;      (* next_sqrt_price *)
  sr_trading : Z;
  sr_protocol : Z;
  sr_referral : Z }.

Definition fi_of_direction (c : config) (price : Z) (d : direction) (amount : Z) : res from_in :=
  match d with
  | BaseToQuote => calc_sell_from_in c price amount
  | QuoteToBase => calc_buy_from_in c price amount (c_mig_price c)
  end.

Definition fo_of_direction (c : config) (price : Z) (d : direction) (amount : Z) : res from_out :=
  match d with
  | BaseToQuote => calc_sell_from_out c price amount
  | QuoteToBase => calc_buy_from_out c price amount
  end.

(** state/virtual_pool.rs:506-518, 604-616: numerator for an amount that includes the fee. *)
Definition num_included (c : config) (p : pool) (cur amount : Z) (d : direction) (eligible : bool)
  : res Z :=
  if eligible then min_base_fee_numerator (pf_base (c_fees c))
  else total_num_included (c_fees c) (p_tracker p) cur (p_activation p) amount d.

(** state/virtual_pool.rs:248-260, 297-309, 657-669: for an amount that excludes the fee. *)
Definition num_excluded (c : config) (p : pool) (cur amount : Z) (d : direction) (eligible : bool)
  : res Z :=
  if eligible then min_base_fee_numerator (pf_base (c_fees c))
  else total_num_excluded (c_fees c) (p_tracker p) cur (p_activation p) amount d.

(** state/virtual_pool.rs:492-588 [get_swap_result_from_exact_input] *)
Definition swap_exact_in (c : config) (p : pool) (amount : Z) (fm : fee_mode) (d : direction)
    (cur : Z) (eligible : bool) : res swap_result :=
  do num <- num_included c p cur amount d eligible ;;
  do f <- (if fm_on_input fm then get_fee_on_amount num amount (fm_referral fm)
           else Ok (mkFoA amount 0 0 0)) ;;
  do r <- fi_of_direction c (p_price p) d (foa_amount f) ;;
  do _ <- require (fi_left r =? 0) EInsufficientLiquidity ;;
  do g <- (if fm_on_input fm then Ok (mkFoA (fi_out r) (foa_trading f) (foa_protocol f)
                                            (foa_referral f))
           else get_fee_on_amount num (fi_out r) (fm_referral fm)) ;;
  Ok (mkSwapResult amount (foa_amount f) (fi_left r) (foa_amount g) (fi_price r)
                   (foa_trading g) (foa_protocol g) (foa_referral g)).

(** state/virtual_pool.rs:590-722 [get_swap_result_from_partial_input] *)
Definition swap_partial (c : config) (p : pool) (amount : Z) (fm : fee_mode) (d : direction)
    (cur : Z) (eligible : bool) : res swap_result :=
  do num <- num_included c p cur amount d eligible ;;
  do f <- (if fm_on_input fm then get_fee_on_amount num amount (fm_referral fm)
           else Ok (mkFoA amount 0 0 0)) ;;
  do r <- fi_of_direction c (p_price p) d (foa_amount f) ;;
  (* (included, actual amount in, trading, protocol, referral) after the recomputation *)
  do k <- (if negb (fi_left r =? 0) then
             do actual <- ssub (foa_amount f) (fi_left r) ;;
             if fm_on_input fm then
               do num' <- num_excluded c p cur actual d eligible ;;
               do ie <- get_included_fee_amount num' actual ;;
               let '(incl, fee) := ie in
               do s <- split_fees fee (fm_referral fm) ;;
               let '(tr, pr, rf) := s in
               Ok (incl, actual, tr, pr, rf)
             else Ok (actual, actual, 0, 0, 0)
           else Ok (amount, foa_amount f, foa_trading f, foa_protocol f, foa_referral f)) ;;
  let '(incl, actual, tr, pr, rf) := k in
  do g <- (if fm_on_input fm then Ok (mkFoA (fi_out r) tr pr rf)
           else get_fee_on_amount num (fi_out r) (fm_referral fm)) ;;
  Ok (mkSwapResult incl actual (fi_left r) (foa_amount g) (fi_price r)
                   (foa_trading g) (foa_protocol g) (foa_referral g)).

(** state/virtual_pool.rs:232-334 [get_swap_result_from_exact_output] *)
Definition swap_exact_out (c : config) (p : pool) (amount : Z) (fm : fee_mode) (d : direction)
    (cur : Z) (eligible : bool) : res swap_result :=
  do k <- (if fm_on_input fm then Ok (amount, 0, 0, 0)
           else
             do num <- num_excluded c p cur amount d eligible ;;
             do ie <- get_included_fee_amount num amount ;;
             let '(incl, fee) := ie in
             do s <- split_fees fee (fm_referral fm) ;;
             let '(tr, pr, rf) := s in
             Ok (incl, tr, pr, rf)) ;;
  let '(gross_out, tr, pr, rf) := k in
  do r <- fo_of_direction c (p_price p) d gross_out ;;
  do _ <- require (fo_price r <=? c_mig_price c) EInsufficientLiquidity ;;
  do m <- (if fm_on_input fm then
             do num <- num_excluded c p cur (fo_in r) d eligible ;;
             do ie <- get_included_fee_amount num (fo_in r) ;;
             let '(incl, fee) := ie in
             do s <- split_fees fee (fm_referral fm) ;;
             let '(tr', pr', rf') := s in
             Ok (incl, tr', pr', rf')
           else Ok (fo_in r, tr, pr, rf)) ;;
  let '(incl, tr', pr', rf') := m in
  Ok (mkSwapResult incl (fo_in r) 0 amount (fo_price r) tr' pr' rf').

(** ** Applying a swap *)

(** state/virtual_pool.rs:961-970 *)
Definition update_pre_swap (c : config) (p : pool) (now : Z) : res pool :=
  if dyn_enabled (pf_dyn (c_fees c)) then
    do vt <- update_references (pf_dyn (c_fees c)) (p_tracker p) (p_price p) now ;;
    Ok (set_tracker p vt)
  else Ok p.

(** state/virtual_pool.rs:972-994 *)
Definition update_post_swap (c : config) (p : pool) (old_price now : Z) : res pool :=
  if dyn_enabled (pf_dyn (c_fees c)) then
    do vt <- update_volatility_accumulator (pf_dyn (c_fees c)) (p_tracker p) (p_price p) ;;
    do d <- delta_bin_id (df_bin_step_u128 (pf_dyn (c_fees c))) old_price (p_price p) ;;
    if 0 <? d
    then Ok (set_tracker p (mkTracker now (vt_price_ref vt) (vt_va vt) (vt_vref vt)))
    else Ok (set_tracker p vt)
  else Ok p.

(** state/virtual_pool.rs:913-933, 186-201: fee counters and metrics. *)
Definition apply_fees (c : config) (p : pool) (on_base : bool) (trading protocol : Z) : res pool :=
  do s <- split_partner_and_creator_fee c trading ;;
  let '(partner_fee, creator_fee) := s in
  if on_base then
    do a <- sadd U64_MAX (p_partner_base p) partner_fee ;;
    do b <- sadd U64_MAX (p_protocol_base p) protocol ;;
    do e <- sadd U64_MAX (p_creator_base p) creator_fee ;;
    do mp <- sadd U64_MAX (p_m_protocol_base p) protocol ;;
    do mt <- sadd U64_MAX (p_m_trading_base p) trading ;;
    Ok (set_m_trading_base (set_m_protocol_base (set_creator_base (set_protocol_base
          (set_partner_base p a) b) e) mp) mt)
  else
    do a <- sadd U64_MAX (p_partner_quote p) partner_fee ;;
    do b <- sadd U64_MAX (p_protocol_quote p) protocol ;;
    do e <- sadd U64_MAX (p_creator_quote p) creator_fee ;;
    do mp <- sadd U64_MAX (p_m_protocol_quote p) protocol ;;
    do mt <- sadd U64_MAX (p_m_trading_quote p) trading ;;
    Ok (set_m_trading_quote (set_m_protocol_quote (set_creator_quote (set_protocol_quote
          (set_partner_quote p a) b) e) mp) mt).

(** state/virtual_pool.rs:935-943 *)
Definition actual_output (fm : fee_mode) (r : swap_result) : res Z :=
  if fm_on_input fm then Ok (sr_output r)
  else
    do a <- sadd U64_MAX (sr_output r) (sr_trading r) ;;
    do b <- sadd U64_MAX a (sr_protocol r) ;;
    sadd U64_MAX b (sr_referral r).

(** state/virtual_pool.rs:945-951 *)
Definition apply_reserves (p : pool) (d : direction) (inp out : Z) : res pool :=
  match d with
  | BaseToQuote =>
    do b <- sadd U64_MAX (p_base p) inp ;;
    do q <- ssub (p_quote p) out ;;
    Ok (set_quote (set_base p b) q)
  | QuoteToBase =>
    do q <- sadd U64_MAX (p_quote p) inp ;;
    do b <- ssub (p_base p) out ;;
    Ok (set_base (set_quote p q) b)
  end.

(** state/virtual_pool.rs:899-959 *)
Definition apply_swap_result (c : config) (p : pool) (r : swap_result) (fm : fee_mode)
    (d : direction) (now : Z) : res pool :=
  let old_price := p_price p in
  let p0 := set_price p (sr_price r) in
  do p1 <- apply_fees c p0 (fm_on_base fm) (sr_trading r) (sr_protocol r) ;;
  do out <- actual_output fm r ;;
  do p2 <- apply_reserves p1 d (sr_excluded r) out ;;
  do p3 <- update_post_swap c p2 old_price now ;;
  Ok (set_has_swap p3 1).

(** ** Claims and surplus *)

(** state/virtual_pool.rs:1079-1081 *)
Definition is_curve_complete (p : pool) (threshold : Z) : bool := threshold <=? p_quote p.

(** state/virtual_pool.rs:1000-1013: (pool, amount). *)
Definition claim_protocol_base_fee (p : pool) (maxa : Z) : res (pool * Z) :=
  let a := Z.min (p_protocol_base p) maxa in
  do p1 <- (do v <- ssub (p_protocol_base p) a ;; Ok (set_protocol_base p v)) ;;
  do rest <- ssub maxa a ;;
  let b := Z.min (p_mig_base_fee p) rest in
  do p2 <- (do v <- ssub (p_mig_base_fee p1) b ;; Ok (set_mig_base_fee p1 v)) ;;
  do t <- sadd U64_MAX a b ;;
  Ok (p2, t).

(** state/virtual_pool.rs:1015-1028 *)
Definition claim_protocol_quote_fee (p : pool) (maxa : Z) : res (pool * Z) :=
  let a := Z.min (p_protocol_quote p) maxa in
  do p1 <- (do v <- ssub (p_protocol_quote p) a ;; Ok (set_protocol_quote p v)) ;;
  do rest <- ssub maxa a ;;
  let b := Z.min (p_mig_quote_fee p) rest in
  do p2 <- (do v <- ssub (p_mig_quote_fee p1) b ;; Ok (set_mig_quote_fee p1 v)) ;;
  do t <- sadd U64_MAX a b ;;
  Ok (p2, t).

(** state/virtual_pool.rs:1087-1089 *)
Definition get_total_surplus (p : pool) (threshold : Z) : res Z := ssub (p_quote p) threshold.

(** state/virtual_pool.rs:1091-1099 *)
Definition get_partner_and_creator_surplus (total : Z) : res Z :=
  safe_mul_div_cast_u64 U64_MAX total PARTNER_AND_CREATOR_SURPLUS_SHARE 100 Down.

(** state/virtual_pool.rs:1101-1117 *)
Definition get_partner_surplus (p : pool) (c : config) (threshold : Z) : res Z :=
  do t <- get_total_surplus p threshold ;;
  do s <- get_partner_and_creator_surplus t ;;
  do ps <- split_partner_and_creator_fee c s ;;
  Ok (fst ps).
Definition get_creator_surplus (p : pool) (c : config) (threshold : Z) : res Z :=
  do t <- get_total_surplus p threshold ;;
  do s <- get_partner_and_creator_surplus t ;;
  do ps <- split_partner_and_creator_fee c s ;;
  Ok (snd ps).

(** state/virtual_pool.rs:1119-1123 *)
Definition get_protocol_surplus (p : pool) (threshold : Z) : res Z :=
  do t <- get_total_surplus p threshold ;;
  do s <- get_partner_and_creator_surplus t ;;
  ssub t s.

(** state/virtual_pool.rs:1030-1046 *)
Definition claim_protocol_quote_fee_and_surplus (p : pool) (c : config) (maxa : Z)
  : res (pool * Z) :=
  do r <- claim_protocol_quote_fee p maxa ;;
  let '(p1, amount) := r in
  if (p_protocol_surplus p1 =? 0) && is_curve_complete p1 (c_threshold c) then
    do s <- get_protocol_surplus p1 (c_threshold c) ;;
    do t <- sadd U64_MAX amount s ;;
    Ok (set_protocol_surplus p1 1, t)
  else Ok (p1, amount).

(** state/virtual_pool.rs:1048-1058: (pool, base, quote). *)
Definition claim_partner_trading_fee (p : pool) (maxb maxq : Z) : res (pool * Z * Z) :=
  let b := Z.min (p_partner_base p) maxb in
  let q := Z.min (p_partner_quote p) maxq in
  do vb <- ssub (p_partner_base p) b ;;
  do vq <- ssub (p_partner_quote p) q ;;
  Ok (set_partner_quote (set_partner_base p vb) vq, b, q).

(** state/virtual_pool.rs:1060-1070 *)
Definition claim_creator_trading_fee (p : pool) (maxb maxq : Z) : res (pool * Z * Z) :=
  let b := Z.min (p_creator_base p) maxb in
  let q := Z.min (p_creator_quote p) maxq in
  do vb <- ssub (p_creator_base p) b ;;
  do vq <- ssub (p_creator_quote p) q ;;
  Ok (set_creator_quote (set_creator_base p vb) vq, b, q).

(** state/virtual_pool.rs:1072-1077 *)
Definition get_protocol_and_trading_base_fee (p : pool) : res Z :=
  do a <- sadd U64_MAX (p_partner_base p) (p_protocol_base p) ;;
  sadd U64_MAX a (p_creator_base p).

(** state/virtual_pool.rs:1141-1198: status bits. [eligible] tests the mask, [update] xors. *)
Definition bit_unset (status mask : Z) : bool := Z.land status mask =? 0.
Definition bit_flip (status mask : Z) : Z := Z.lxor status mask.
