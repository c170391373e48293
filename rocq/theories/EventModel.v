(** * Model of the events: src/event.rs and the [emit_cpi!] calls of the handlers.

    The pool and config addresses carried by every event are omitted (one pool). *)
From Coq Require Import ZArith List Bool.
From Verif Require Import Base MathModel CurveModel FeeModel ConfigModel PoolModel TxModel SystemModel.
Import ListNotations.
Open Scope Z_scope.

Inductive event :=
  (* event.rs:88-98; [params] are the amounts of the old instruction, then the fields of SwapResult
     (state/virtual_pool.rs:1208-1215) *)
  | EvSwap (dir : direction) (has_referral : bool) (param_in param_min_out : Z)
           (actual_input output price trading protocol referral : Z) (amount_in time : Z)
  (* event.rs:100-111 *)
  | EvSwap2 (dir : direction) (has_referral : bool) (amount0 amount1 mode : Z) (r : swap_result)
            (quote_reserve threshold time : Z)
  (* event.rs:113-119 *)
  | EvCurveComplete (base_reserve quote_reserve : Z)
  (* event.rs:121-140 *)
  | EvClaimProtocolFee (base quote : Z)
  | EvClaimTradingFee (base quote : Z)
  | EvClaimCreatorTradingFee (base quote : Z)
  (* event.rs:142-145 *)
  | EvCreateMigrationMetadata
  (* event.rs:147-157 *)
  | EvPartnerWithdrawSurplus (amount : Z)
  | EvCreatorWithdrawSurplus (amount : Z)
  (* event.rs:159-164 *)
  | EvWithdrawLeftover (receiver amount : Z)
  (* event.rs:166-171 *)
  | EvUpdatePoolCreator (creator new_creator : Z)
  (* event.rs:173-178 *)
  | EvWithdrawMigrationFee (fee flag : Z)
  (* event.rs:186-199 *)
  | EvClaimPoolCreationFee (fee : Z)
  | EvPartnerClaimPoolCreationFee (partner fee receiver : Z).

(** swap_exact_in.rs:36-41, swap_partial_fill.rs:37-42, swap_exact_out.rs:39-44: the parameters put
    into the old event. *)
Definition legacy_params (mode a0 a1 : Z) (r : swap_result) : Z * Z :=
  if mode =? 0 then (a0, a1)
  else if mode =? 1 then (sr_included r, sr_output r)
  else (sr_included r, a0).

(** ix_swap.rs:283-304, 306-342; [w'] is the state after the swap (the reserves are final when the
    events are emitted). *)
Definition swap_events (a : swap_args) (w' : world) (r : swap_result) : list event :=
  let '(pin, pmin) := legacy_params (sa_mode a) (sa_amount0 a) (sa_amount1 a) r in
  let hr := is_some (sa_referral a) in
  [ EvSwap (sa_dir a) hr pin pmin (sr_excluded r) (sr_output r) (sr_price r) (sr_trading r)
           (sr_protocol r) (sr_referral r) (sr_included r) (sa_now a);
    EvSwap2 (sa_dir a) hr (sa_amount0 a) (sa_amount1 a) (sa_mode a) r
            (p_quote (w_pool w')) (c_threshold (w_config w')) (sa_now a) ]
  ++ if is_curve_complete (w_pool w') (c_threshold (w_config w'))
     then [EvCurveComplete (p_base (w_pool w')) (p_quote (w_pool w'))] else [].

(** The events of one instruction, if it succeeds. *)
Definition events_of (w : world) (o : op) : list event :=
  match o with
  | OSwap a =>
      match swap_full w a with Ok (w', r) => swap_events a w' r | Err _ => [] end
  (* ix_claim_partner_trading_fee.rs:66-97 *)
  | OClaimPartner _ _ b q =>
      match claim_partner_trading_fee (w_pool w) b q with
      | Ok (_, x, y) => [EvClaimTradingFee x y] | Err _ => [] end
  (* ix_claim_creator_trading_fee.rs:60-91 *)
  | OClaimCreator _ _ b q =>
      match claim_creator_trading_fee (w_pool w) b q with
      | Ok (_, x, y) => [EvClaimCreatorTradingFee x y] | Err _ => [] end
  (* ix_claim_protocol_fee.rs:62-115 *)
  | OClaimProtocol _ b q =>
      match claim_protocol_base_fee (w_pool w) b with
      | Ok (p1, x) =>
        match claim_protocol_quote_fee_and_surplus p1 (w_config w) q with
        | Ok (_, y) => [EvClaimProtocolFee x y] | Err _ => [] end
      | Err _ => []
      end
  (* ix_withdraw_partner_surplus.rs:62-83 *)
  | OPartnerSurplus _ _ =>
      match get_partner_surplus (w_pool w) (w_config w) (c_threshold (w_config w)) with
      | Ok x => [EvPartnerWithdrawSurplus x] | Err _ => [] end
  (* ix_withdraw_creator_surplus.rs:62-83 *)
  | OCreatorSurplus _ _ =>
      match get_creator_surplus (w_pool w) (w_config w) (c_threshold (w_config w)) with
      | Ok x => [EvCreatorWithdrawSurplus x] | Err _ => [] end
  (* ix_withdraw_migration_fee.rs:83-132 *)
  | OMigrationFee _ _ flag =>
      match get_migration_fee_distribution (w_config w) with
      | Ok (partner_fee, creator_fee) =>
        [EvWithdrawMigrationFee (if flag =? 0 then partner_fee else creator_fee) flag]
      | Err _ => [] end
  (* withdraw_leftover.rs:76-99 *)
  | OLeftover =>
      match (do fees <- get_protocol_and_trading_base_fee (w_pool w) ;;
             do a <- ssub (w_bvault w) fees ;;
             ssub a (p_mig_base_fee (w_pool w))) with
      | Ok a => [EvWithdrawLeftover (c_leftover_receiver (w_config w)) a] | Err _ => [] end
  (* ix_claim_partner_pool_creation_fee.rs:26-51 *)
  | OPartnerCreationFee s to =>
      match split_pool_creation_fee (w_config w) with
      | Ok s2 => [EvPartnerClaimPoolCreationFee s (snd s2) to] | Err _ => [] end
  (* ix_claim_protocol_pool_creation_fee.rs:36-64 *)
  | OProtocolCreationFee _ =>
      let p := w_pool w in
      match (if bit_unset (p_creation_bits p) PROTOCOL_CREATION_FEE_MASK
             then do s <- split_pool_creation_fee (w_config w) ;; Ok (fst s) else Ok 0) with
      | Ok fee =>
        let legacy := negb (bit_unset (p_legacy_bits p) LEGACY_CHARGED_MASK)
                      && bit_unset (p_legacy_bits p) LEGACY_CLAIMED_MASK in
        [EvClaimPoolCreationFee (if legacy then fee + LEGACY_CREATION_FEE else fee)]
      | Err _ => [] end
  (* ix_transfer_pool_creator.rs:87-91 *)
  | OTransferCreator s n => [EvUpdatePoolCreator s n]
  (* migration_meteora_damm_create_metadata.rs:52-54 *)
  | OCreateMetadata => [EvCreateMigrationMetadata]
  (* zap (ix_zap_protocol_fee.rs), locker creation (create_locker.rs), both migrations, the LP
     instructions and the operator accounts emit nothing *)
  | _ => []
  end.

(** A failed transaction leaves no events. *)
Definition emits (w : world) (o : op) : list event :=
  match exec w o with Ok _ => events_of w o | Err _ => [] end.

Fixpoint history (w : world) (ops : list op) : list event :=
  match ops with
  | [] => []
  | o :: rest => emits w o ++ history (step w o) rest
  end.

(** ** Creation *)
Inductive start_event :=
  (* event.rs:26-54, the old event of config creation; [pool_fees] is the pair of the two fee
     parameters *)
  | EvCreateConfig (quote_mint fee_claimer owner : Z) (base_fee_ : base_fee) (dynamic : option dynamic_fee)
      (collect_fee_mode migration_option activation_type token_decimal token_type : Z)
      (partner_perm partner_liq creator_perm creator_liq : Z)
      (swap_base threshold migration_base start : Z) (vesting : locked_vesting)
      (migration_fee_option fixed_flag pre post : Z) (curve : list point)
  (* event.rs:56-63 *)
  | EvCreateConfig2 (quote_mint fee_claimer leftover_receiver : Z) (params : config_params)
  (* event.rs:78-86 *)
  | EvInitializePool (creator pool_type activation : Z).

(** ix_create_config.rs:755-788; the derived numbers are the local variables that were also put into
    the config account [c]. *)
Definition config_events (q : config_params) (supported spl : bool) (now quote_mint fee_claimer leftover : Z)
  : list start_event :=
  match create_config q supported spl now quote_mint fee_claimer leftover with
  | Ok c =>
    [ EvCreateConfig quote_mint fee_claimer leftover (q_base_fee q) (q_dynamic_fee q)
        (q_collect_fee_mode q) (q_migration_option q) (q_activation_type q) (q_token_decimal q)
        (q_token_type q) (q_partner_perm_pct q) (q_partner_liq_pct q) (q_creator_perm_pct q)
        (q_creator_liq_pct q) (c_swap_base_amount c) (q_threshold q) (c_base_threshold c) (q_start q)
        (q_vesting q) (q_migration_fee_option q) (c_fixed_supply_flag c) (c_pre_supply c)
        (c_post_supply c) (q_curve q);
      EvCreateConfig2 quote_mint fee_claimer leftover q ]
  | Err _ => []
  end.

(** ix_initialize_virtual_pool_with_spl_token.rs:225-257, ix_initialize_virtual_pool_with_token2022.rs:245-277:
    the pool type is that of the instruction (0 SPL Token, 1 Token-2022), the activation point the
    current point. *)
Definition pool_events (c : config) (key creator payer token_type slot time : Z) (admins : list Z)
    (operators : list (Z * Z)) : list start_event :=
  match initialize_pool c key creator payer token_type slot time admins operators, current_point c slot time with
  | Ok _, Ok activation => [ EvInitializePool creator token_type activation ]
  | _, _ => []
  end.
