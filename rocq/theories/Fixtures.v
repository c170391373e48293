(** * Concrete configs, pools and histories used to show that the hypotheses of the theorems
      are met by real, non-trivial cases. Everything here is computed by the kernel. *)
From Coq Require Import ZArith List Bool.
From Verif Require Import Base MathModel CurveModel FeeModel ConfigModel PoolModel TxModel SystemModel.
Import ListNotations.
Open Scope Z_scope.

Definition Q64_ : Z := 18446744073709551616.
Definition fx_liq : Z := 2560000000000 * Q64_.

Definition fx_curve : list point :=
  [ (Q64_ / 24, fx_liq); (Q64_ / 12, 2 * fx_liq); (Q64_ / 4, fx_liq) ].

Definition no_vest : liq_vesting_params := mkLVParams 0 0 0 0 0.

(** DAMM v2 (concentrated), quote fees, linear fee schedule, dynamic fee, base vesting, fixed
    supply, 30% creator share of trading fees, 10% migration fee. *)
Definition fx_paramsA : config_params :=
  {| q_base_fee := mkBaseFee 50000000 10 60 4000000 0;
     q_dynamic_fee := Some (mkDynFee 0 14460000 956 1 10 120 5000 1844674407370955);
     q_collect_fee_mode := 0; q_migration_option := 1; q_activation_type := 1;
     q_token_type := 0; q_token_decimal := 6;
     q_partner_liq_pct := 20; q_partner_perm_pct := 30; q_creator_liq_pct := 15;
     q_creator_perm_pct := 5;
     q_threshold := 100000000000; q_start := Q64_ / 32;
     q_vesting := mkLockedVesting 1000000 3600 86400 10 5000000;
     q_migration_fee_option := 2;
     q_token_supply := Some (200000000000000, 150000000000000);
     q_creator_trading_fee_pct := 30; q_token_update_authority := 1;
     q_migration_fee_pct := 10; q_creator_migration_fee_pct := 40;
     q_migrated_collect_mode := 0; q_migrated_dynamic_fee := 0; q_migrated_pool_fee_bps := 0;
     q_pool_creation_fee := 50000000;
     q_partner_vesting := mkLVParams 20 500 10 3600 86400;
     q_creator_vesting := mkLVParams 10 0 0 86400 0;
     q_migrated_base_fee_mode := 0; q_mc_number_of_period := 0; q_mc_price_step := 0;
     q_mc_expiration := 0; q_mc_reduction := 0; q_first_swap_min_fee := true;
     q_compounding_fee_bps := 0; q_curve := fx_curve |}.

(** DAMM v1, output-token fees, exponential schedule, free supply, no vesting. *)
Definition fx_paramsB : config_params :=
  {| q_base_fee := mkBaseFee 100000000 20 60 500 1;
     q_dynamic_fee := None;
     q_collect_fee_mode := 1; q_migration_option := 0; q_activation_type := 0;
     q_token_type := 0; q_token_decimal := 9;
     q_partner_liq_pct := 40; q_partner_perm_pct := 20; q_creator_liq_pct := 30;
     q_creator_perm_pct := 10;
     q_threshold := 100000000000; q_start := Q64_ / 32;
     q_vesting := mkLockedVesting 0 0 0 0 0;
     q_migration_fee_option := 0; q_token_supply := None;
     q_creator_trading_fee_pct := 50; q_token_update_authority := 3;
     q_migration_fee_pct := 0; q_creator_migration_fee_pct := 0;
     q_migrated_collect_mode := 0; q_migrated_dynamic_fee := 0; q_migrated_pool_fee_bps := 0;
     q_pool_creation_fee := 0;
     q_partner_vesting := no_vest; q_creator_vesting := no_vest;
     q_migrated_base_fee_mode := 0; q_mc_number_of_period := 0; q_mc_price_step := 0;
     q_mc_expiration := 0; q_mc_reduction := 0; q_first_swap_min_fee := false;
     q_compounding_fee_bps := 0; q_curve := fx_curve |}.

(** DAMM v2 compounding with a market-cap fee schedule, rate limiter on the curve. *)
Definition fx_paramsC : config_params :=
  {| q_base_fee := mkBaseFee 10000000 100 600 1000000000 2;
     q_dynamic_fee := None;
     q_collect_fee_mode := 0; q_migration_option := 1; q_activation_type := 1;
     q_token_type := 1; q_token_decimal := 6;
     q_partner_liq_pct := 50; q_partner_perm_pct := 0; q_creator_liq_pct := 0;
     q_creator_perm_pct := 50;
     q_threshold := 100000000000; q_start := Q64_ / 32;
     q_vesting := mkLockedVesting 0 0 0 0 0;
     q_migration_fee_option := 6; q_token_supply := None;
     q_creator_trading_fee_pct := 0; q_token_update_authority := 0;
     q_migration_fee_pct := 0; q_creator_migration_fee_pct := 0;
     q_migrated_collect_mode := 2; q_migrated_dynamic_fee := 1; q_migrated_pool_fee_bps := 100;
     q_pool_creation_fee := 0;
     q_partner_vesting := no_vest; q_creator_vesting := no_vest;
     q_migrated_base_fee_mode := 3; q_mc_number_of_period := 10; q_mc_price_step := 100;
     q_mc_expiration := 86400; q_mc_reduction := 500000; q_first_swap_min_fee := false;
     q_compounding_fee_bps := 5000; q_curve := fx_curve |}.

Definition fx_config (q : config_params) : res config :=
  create_config q true true 1700000000 11 22 33.

Definition get {A} (d : A) (r : res A) : A := match r with Ok a => a | Err _ => d end.

Definition dummy_config : config :=
  mkConfig 0 0 0 (mkPoolFees (mkBaseFee 0 0 0 0 0) (mkDynFee 0 0 0 0 0 0 0 0))
    (mkLiqVesting 0 0 0 0 0 0) (mkLiqVesting 0 0 0 0 0 0) 0 0 0 0 0 0 0 0 0 0 0 0 0 0 0 0 0 0 0
    (mkLockedVesting 0 0 0 0 0) 0 0 0 0 0 0 0 0 0 0 0 0 0 0 [].

Definition cfgA : config := Eval vm_compute in get dummy_config (fx_config fx_paramsA).
Definition cfgB : config := Eval vm_compute in get dummy_config (fx_config fx_paramsB).
Definition cfgC : config := Eval vm_compute in get dummy_config (fx_config fx_paramsC).

Example cfgA_created : fx_config fx_paramsA = Ok cfgA.
Proof. vm_compute. reflexivity. Qed.
Example cfgB_created : fx_config fx_paramsB = Ok cfgB.
Proof. vm_compute. reflexivity. Qed.
Example cfgC_created : fx_config fx_paramsC = Ok cfgC.
Proof. vm_compute. reflexivity. Qed.

(** Pools: key 77, creator 44, payer 55, admin 99. *)
Definition fx_world (c : config) (tt : Z) : res world :=
  initialize_pool c 77 44 55 tt 1000 1700000000 [99] [].

Definition dummy_world : world :=
  mkWorld 0 dummy_config (pool_init 0 0 0 0 0) 0 0 0 0 None None None 0 None [] [] [] [].

Definition wA : world := Eval vm_compute in get dummy_world (fx_world cfgA 0).
Definition wB : world := Eval vm_compute in get dummy_world (fx_world cfgB 0).
Definition wC : world := Eval vm_compute in get dummy_world (fx_world cfgC 1).

Example wA_created : fx_world cfgA 0 = Ok wA. Proof. vm_compute. reflexivity. Qed.
Example wB_created : fx_world cfgB 0 = Ok wB. Proof. vm_compute. reflexivity. Qed.
Example wC_created : fx_world cfgC 1 = Ok wC. Proof. vm_compute. reflexivity. Qed.

(** A top-level swap instruction, alone in its transaction. *)
Definition swap_ix : ixn := mkIx SELF [1; 2; 77] KSwap.
Definition plain_view : view := mkView true [] swap_ix 1 [].
Definition init_ix : ixn := mkIx SELF [1; 2; 3; 4; 5; 77] KInit.
Definition init_view : view := mkView true [init_ix] swap_ix 1 [].

Definition swp (user : Z) (ref : option Z) (d : direction) (mode a0 a1 now : Z) (v : view) : op :=
  OSwap (mkSwapArgs user ref d mode a0 a1 (1000 + (now - 1700000000) * 2) now v).

(** A full life of pool A: buys, sells, claims, completion, vesting, migration, withdrawals. *)
Definition histA1 : list op :=
  [ swp 500 None QuoteToBase 0 2000000000 0 1700000000 init_view;
    swp 501 (Some 600) QuoteToBase 0 30000000000 1 1700000030 plain_view;
    swp 500 (Some 600) BaseToQuote 0 1000000000000 0 1700000050 plain_view;
    swp 502 None QuoteToBase 2 1000000000000 99000000000 1700000200 plain_view;
    swp 501 None BaseToQuote 2 1000000000 9000000000000 1700000210 plain_view;
    OClaimPartner 22 22 0 100000000;
    OClaimCreator 44 44 18446744073709551615 18446744073709551615 ].
Definition histA2 : list op :=
  [ swp 503 None QuoteToBase 1 200000000000 0 1700000900 plain_view ].
Definition histA3 : list op :=
  [ OCreateOperator 99 88 3;
    OMigrationFee 22 22 0;
    OPartnerSurplus 22 22;
    OCreateLocker;
    OMigrateV2 (mkExt true 20000000000000 40000000000 20000000000000 40000000000
                      (2 ^ 100) 1000000000 1000000000 true) 1700001000;
    OMigrationFee 44 44 1;
    OClaimProtocol 88 18446744073709551615 18446744073709551615;
    OCreatorSurplus 44 44;
    OLeftover;
    OPartnerCreationFee 22 22;
    OProtocolCreationFee 88;
    OTransferCreator 44 45 ].

Fixpoint all_ok (w : world) (l : list op) : bool :=
  match l with
  | [] => true
  | o :: r => match exec w o with Ok w' => all_ok w' r | Err _ => false end
  end.

(** DAMM v2, rate limiter with a gentle slope: used for the partial-fill counterexample. *)
Definition fx_paramsD : config_params :=
  {| q_base_fee := mkBaseFee 54820387 1 600 66008491259 2;
     q_dynamic_fee := None;
     q_collect_fee_mode := 0; q_migration_option := 1; q_activation_type := 1;
     q_token_type := 1; q_token_decimal := 6;
     q_partner_liq_pct := 50; q_partner_perm_pct := 0; q_creator_liq_pct := 0;
     q_creator_perm_pct := 50;
     q_threshold := 100000000000; q_start := Q64_ / 32;
     q_vesting := mkLockedVesting 0 0 0 0 0;
     q_migration_fee_option := 2; q_token_supply := None;
     q_creator_trading_fee_pct := 0; q_token_update_authority := 0;
     q_migration_fee_pct := 0; q_creator_migration_fee_pct := 0;
     q_migrated_collect_mode := 0; q_migrated_dynamic_fee := 0; q_migrated_pool_fee_bps := 0;
     q_pool_creation_fee := 0;
     q_partner_vesting := no_vest; q_creator_vesting := no_vest;
     q_migrated_base_fee_mode := 0; q_mc_number_of_period := 0; q_mc_price_step := 0;
     q_mc_expiration := 0; q_mc_reduction := 0; q_first_swap_min_fee := false;
     q_compounding_fee_bps := 0; q_curve := fx_curve |}.
Definition cfgD : config := Eval vm_compute in get dummy_config (fx_config fx_paramsD).
Example cfgD_created : fx_config fx_paramsD = Ok cfgD.
Proof. vm_compute. reflexivity. Qed.
Definition wD : world := Eval vm_compute in get dummy_world (fx_world cfgD 1).
Example wD_created : fx_world cfgD 1 = Ok wD. Proof. vm_compute. reflexivity. Qed.
