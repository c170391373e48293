(** * Model of the instruction handlers: src/lib.rs, src/instructions/**, src/utils/*.
      One config, one pool, its two vaults, and everybody else as the outside world. *)
From Coq Require Import ZArith List Bool.
From Verif Require Import Base MathModel CurveModel FeeModel ConfigModel PoolModel TxModel.
Import ListNotations.
Open Scope Z_scope.

(** ** The world *)

Inductive token := TBase | TQuote | TSol | TLp.

(** Who holds tokens: an account owned by key [k], the pool (its vaults, its lamports, the LP
    account of the pool authority), the protocol treasury, the DAMM pool, the vesting escrow,
    a DAMM v1 lock escrow of key [k], the mint (source of minting, sink of burning). *)
Inductive party :=
  | PKey (k : Z) | PPool | PTreasury | PDamm | PEscrow | PLock (k : Z) | PMint.

Record transfer := mkTransfer { t_token : token; t_from : party; t_to : party; t_amount : Z }.

(** meteora_damm_metadata_state.rs:5-36 (lp_mint and virtual_pool omitted). *)
Record v1meta := mkMeta {
  m_partner : Z;
  m_partner_locked : Z; m_partner_liq : Z; m_creator_locked : Z; m_creator_liq : Z;
  m_creator_lock_done : Z; m_partner_lock_done : Z;
  m_creator_claim_done : Z; m_partner_claim_done : Z }.

(** A DAMM v2 position created at migration: owner, liquidity, the vesting parameters of the
    vested part when there is one, and the square root price given to the new DAMM v2 pool. *)
Record position := mkPosition {
  po_owner : Z; po_total : Z; po_perm : Z; po_vested : Z; po_vesting : option vesting_params;
  po_price : Z }.

Record world := mkWorld {
  w_key : Z;                   (* address of the pool account *)
  w_config : config;
  w_pool : pool;
  w_bvault : Z;                (* base vault balance *)
  w_qvault : Z;                (* quote vault balance *)
  w_lamports : Z;              (* lamports of the pool account above its rent minimum *)
  w_supply : Z;                (* base mint supply *)
  w_mint_auth : option Z;
  w_update_auth : option Z;
  w_meta : option v1meta;
  w_lp : Z;                    (* DAMM v1 LP tokens held by the pool authority *)
  w_escrow : option (Z * Z * escrow);   (* recipient, amount, parameters *)
  w_positions : list position;
  w_admins : list Z;           (* admin/auth.rs:8-16 *)
  w_operators : list (Z * Z);  (* operator accounts: (whitelisted_address, permission) *)
  w_log : list transfer }.

(** One functional setter per field. *)
Definition set_w_key (w : world) (v : Z) : world :=
  mkWorld v (w_config w) (w_pool w) (w_bvault w) (w_qvault w) (w_lamports w) (w_supply w) (w_mint_auth w) (w_update_auth w) (w_meta w) (w_lp w) (w_escrow w) (w_positions w) (w_admins w) (w_operators w) (w_log w).
Definition set_w_config (w : world) (v : config) : world :=
  mkWorld (w_key w) v (w_pool w) (w_bvault w) (w_qvault w) (w_lamports w) (w_supply w) (w_mint_auth w) (w_update_auth w) (w_meta w) (w_lp w) (w_escrow w) (w_positions w) (w_admins w) (w_operators w) (w_log w).
Definition set_w_pool (w : world) (v : pool) : world :=
  mkWorld (w_key w) (w_config w) v (w_bvault w) (w_qvault w) (w_lamports w) (w_supply w) (w_mint_auth w) (w_update_auth w) (w_meta w) (w_lp w) (w_escrow w) (w_positions w) (w_admins w) (w_operators w) (w_log w).
Definition set_w_bvault (w : world) (v : Z) : world :=
  mkWorld (w_key w) (w_config w) (w_pool w) v (w_qvault w) (w_lamports w) (w_supply w) (w_mint_auth w) (w_update_auth w) (w_meta w) (w_lp w) (w_escrow w) (w_positions w) (w_admins w) (w_operators w) (w_log w).
Definition set_w_qvault (w : world) (v : Z) : world :=
  mkWorld (w_key w) (w_config w) (w_pool w) (w_bvault w) v (w_lamports w) (w_supply w) (w_mint_auth w) (w_update_auth w) (w_meta w) (w_lp w) (w_escrow w) (w_positions w) (w_admins w) (w_operators w) (w_log w).
Definition set_w_lamports (w : world) (v : Z) : world :=
  mkWorld (w_key w) (w_config w) (w_pool w) (w_bvault w) (w_qvault w) v (w_supply w) (w_mint_auth w) (w_update_auth w) (w_meta w) (w_lp w) (w_escrow w) (w_positions w) (w_admins w) (w_operators w) (w_log w).
Definition set_w_supply (w : world) (v : Z) : world :=
  mkWorld (w_key w) (w_config w) (w_pool w) (w_bvault w) (w_qvault w) (w_lamports w) v (w_mint_auth w) (w_update_auth w) (w_meta w) (w_lp w) (w_escrow w) (w_positions w) (w_admins w) (w_operators w) (w_log w).
Definition set_w_mint_auth (w : world) (v : option Z) : world :=
  mkWorld (w_key w) (w_config w) (w_pool w) (w_bvault w) (w_qvault w) (w_lamports w) (w_supply w) v (w_update_auth w) (w_meta w) (w_lp w) (w_escrow w) (w_positions w) (w_admins w) (w_operators w) (w_log w).
Definition set_w_update_auth (w : world) (v : option Z) : world :=
  mkWorld (w_key w) (w_config w) (w_pool w) (w_bvault w) (w_qvault w) (w_lamports w) (w_supply w) (w_mint_auth w) v (w_meta w) (w_lp w) (w_escrow w) (w_positions w) (w_admins w) (w_operators w) (w_log w).
Definition set_w_meta (w : world) (v : option v1meta) : world :=
  mkWorld (w_key w) (w_config w) (w_pool w) (w_bvault w) (w_qvault w) (w_lamports w) (w_supply w) (w_mint_auth w) (w_update_auth w) v (w_lp w) (w_escrow w) (w_positions w) (w_admins w) (w_operators w) (w_log w).
Definition set_w_lp (w : world) (v : Z) : world :=
  mkWorld (w_key w) (w_config w) (w_pool w) (w_bvault w) (w_qvault w) (w_lamports w) (w_supply w) (w_mint_auth w) (w_update_auth w) (w_meta w) v (w_escrow w) (w_positions w) (w_admins w) (w_operators w) (w_log w).
Definition set_w_escrow (w : world) (v : option (Z * Z * escrow)) : world :=
  mkWorld (w_key w) (w_config w) (w_pool w) (w_bvault w) (w_qvault w) (w_lamports w) (w_supply w) (w_mint_auth w) (w_update_auth w) (w_meta w) (w_lp w) v (w_positions w) (w_admins w) (w_operators w) (w_log w).
Definition set_w_positions (w : world) (v : list position) : world :=
  mkWorld (w_key w) (w_config w) (w_pool w) (w_bvault w) (w_qvault w) (w_lamports w) (w_supply w) (w_mint_auth w) (w_update_auth w) (w_meta w) (w_lp w) (w_escrow w) v (w_admins w) (w_operators w) (w_log w).
Definition set_w_admins (w : world) (v : list Z) : world :=
  mkWorld (w_key w) (w_config w) (w_pool w) (w_bvault w) (w_qvault w) (w_lamports w) (w_supply w) (w_mint_auth w) (w_update_auth w) (w_meta w) (w_lp w) (w_escrow w) (w_positions w) v (w_operators w) (w_log w).
Definition set_w_operators (w : world) (v : list (Z * Z)) : world :=
  mkWorld (w_key w) (w_config w) (w_pool w) (w_bvault w) (w_qvault w) (w_lamports w) (w_supply w) (w_mint_auth w) (w_update_auth w) (w_meta w) (w_lp w) (w_escrow w) (w_positions w) (w_admins w) v (w_log w).
Definition set_w_log (w : world) (v : list transfer) : world :=
  mkWorld (w_key w) (w_config w) (w_pool w) (w_bvault w) (w_qvault w) (w_lamports w) (w_supply w) (w_mint_auth w) (w_update_auth w) (w_meta w) (w_lp w) (w_escrow w) (w_positions w) (w_admins w) (w_operators w) v.

Definition log (w : world) (t : transfer) : world := set_w_log w (w_log w ++ [t]).

(** utils/token.rs:87-118: transfers out of the vaults. The token program rejects a transfer above
    the balance. Destination accounts are identified by their owner. *)
Definition pay_base (w : world) (to : party) (a : Z) : res world :=
  do _ <- require (a <=? w_bvault w) ETokenInsufficientFunds ;;
  Ok (log (set_w_bvault w (w_bvault w - a)) (mkTransfer TBase PPool to a)).
Definition pay_quote (w : world) (to : party) (a : Z) : res world :=
  do _ <- require (a <=? w_qvault w) ETokenInsufficientFunds ;;
  Ok (log (set_w_qvault w (w_qvault w - a)) (mkTransfer TQuote PPool to a)).
(** utils/token.rs:54-85: transfers into the vaults; the payer is assumed to hold the tokens. The token program
    rejects a balance above u64. *)
Definition recv_base (w : world) (from : party) (a : Z) : res world :=
  do b <- sadd U64_MAX (w_bvault w) a ;;
  Ok (log (set_w_bvault w b) (mkTransfer TBase from PPool a)).
Definition recv_quote (w : world) (from : party) (a : Z) : res world :=
  do b <- sadd U64_MAX (w_qvault w) a ;;
  Ok (log (set_w_qvault w b) (mkTransfer TQuote from PPool a)).
(** utils/token.rs:173-189 [transfer_lamports_from_pool_account]: keeps the rent minimum. *)
Definition pay_lamports (w : world) (to : party) (a : Z) : res world :=
  do _ <- require (a <=? w_lamports w) EInsufficientPoolLamports ;;
  Ok (log (set_w_lamports w (w_lamports w - a)) (mkTransfer TSol PPool to a)).
Definition burn_base (w : world) (a : Z) : res world :=
  do _ <- require (a <=? w_bvault w) ETokenInsufficientFunds ;;
  Ok (log (set_w_supply (set_w_bvault w (w_bvault w - a)) (w_supply w - a))
          (mkTransfer TBase PPool PMint a)).
Definition pay_lp (w : world) (to : party) (a : Z) : res world :=
  do _ <- require (a <=? w_lp w) ETokenInsufficientFunds ;;
  Ok (log (set_w_lp w (w_lp w - a)) (mkTransfer TLp PPool to a)).

(** ** Pool creation: initialize_pool/ix_initialize_virtual_pool_with_spl_token.rs:140-259 and
    ix_initialize_virtual_pool_with_token2022.rs:119-270 ([token_type] says which one runs).
    Metadata creation and events are omitted. [point_slot], [point_time] are the clock. *)
Definition current_point (c : config) (slot time : Z) : res Z :=
  do a <- activation_of (c_activation_type c) ;;
  Ok (match a with ActSlot => slot | ActTimestamp => time end).

Definition initialize_pool (c : config) (key creator payer : Z) (token_type : Z) (slot time : Z)
    (admins : list Z) (operators : list (Z * Z)) : res world :=
  do bps <- total_locked_bps_at c SECONDS_PER_DAY ;;
  do _ <- require (MIN_LOCKED_LIQUIDITY_BPS <=? bps) EInvalidMigrationLockedLiquidity ;;
  do _ <- validate_min_base_fee (pf_base (c_fees c)) ;;
  do supply <- get_initial_base_supply c ;;
  do _ <- require (c_token_type c =? token_type) EInvalidTokenType ;;
  do upd <- get_update_authority (c_token_update_authority c) creator (c_fee_claimer c) ;;
  do mint <- get_mint_authority (c_token_update_authority c) creator (c_fee_claimer c) ;;
  do act <- current_point c slot time ;;
  Ok (mkWorld key c
        (pool_init creator (c_start c) act supply PROTOCOL_LIQUIDITY_MIGRATION_FEE_BPS)
        supply 0 (c_pool_creation_fee c) supply mint upd None 0 None [] admins operators
        [ mkTransfer TBase PMint PPool supply;
          mkTransfer TSol (PKey payer) PPool (c_pool_creation_fee c) ]).

(** ** Swap: swap/ix_swap.rs:128-345, swap_exact_in.rs, swap_partial_fill.rs,
    swap_exact_out.rs. [Swap] (lib.rs) is [Swap2] with mode 0. The direction is derived from
    the mint of the input account (ix_swap.rs:118-125). *)
Record swap_args := mkSwapArgs {
  sa_user : Z; sa_referral : option Z; sa_dir : direction; sa_mode : Z;
  sa_amount0 : Z; sa_amount1 : Z; sa_slot : Z; sa_now : Z; sa_view : view }.

Definition is_some {A} (o : option A) : bool := match o with Some _ => true | None => false end.
Definition is_ok {A} (r : res A) : bool := match r with Ok _ => true | Err _ => false end.

(** swap_exact_in.rs:7-42, swap_partial_fill.rs:7-44, swap_exact_out.rs:7-46; an unknown mode
    is rejected at ix_swap.rs:139. *)
Definition process_swap (c : config) (p : pool) (mode a0 a1 : Z) (fm : fee_mode)
    (d : direction) (cur : Z) (eligible : bool) : res swap_result :=
  if mode =? 0 then
    do r <- swap_exact_in c p a0 fm d cur eligible ;;
    do _ <- require (a1 <=? sr_output r) EExceededSlippage ;;
    Ok r
  else if mode =? 1 then
    do r <- swap_partial c p a0 fm d cur eligible ;;
    do _ <- require (a1 <=? sr_output r) EExceededSlippage ;;
    Ok r
  else if mode =? 2 then
    do r <- swap_exact_out c p a0 fm d cur eligible ;;
    do _ <- require (sr_included r <=? a1) EExceededSlippage ;;
    Ok r
  else Err ETypeCastFailed.

(** ix_swap.rs:310-337: end of a completing swap. *)
Definition finish_curve (w : world) (now : Z) : res world :=
  let c := w_config w in
  let p := w_pool w in
  if is_curve_complete p (c_threshold c) then
    do fees <- get_protocol_and_trading_base_fee p ;;
    do a <- sadd U64_MAX (c_base_threshold c) fees ;;
    do t <- lv_total (c_vesting c) ;;
    do required <- sadd U64_MAX a t ;;
    do _ <- require (required <=? w_bvault w) EInsufficientLiquidityForMigration ;;
    let p := set_finish p now in
    Ok (set_w_pool w (set_progress p (if has_vesting (c_vesting c) then PostBondingCurve
                                      else LockedVesting)))
  else Ok w.

(** ix_swap.rs:246-293: the three transfers of a swap. *)
Definition swap_transfers (w : world) (a : swap_args) (fm : fee_mode) (r : swap_result)
  : res world :=
  do w1 <- (match sa_dir a with
            | BaseToQuote =>
              do w1 <- recv_base w (PKey (sa_user a)) (sr_included r) ;;
              pay_quote w1 (PKey (sa_user a)) (sr_output r)
            | QuoteToBase =>
              do w1 <- recv_quote w (PKey (sa_user a)) (sr_included r) ;;
              pay_base w1 (PKey (sa_user a)) (sr_output r)
            end) ;;
  match sa_referral a with
  | Some k => if fm_on_base fm then pay_base w1 (PKey k) (sr_referral r)
              else pay_quote w1 (PKey k) (sr_referral r)
  | None => Ok w1
  end.

(** ix_swap.rs:178-191 *)
Definition rate_limit_check (c : config) (p : pool) (key cur : Z) (d : direction) (v : view)
  : res unit :=
  let b := pf_base (c_fees c) in
  if bf_mode b =? 2 then
    do ap <- rl_applied b cur (p_activation p) d ;;
    if ap then validate_single_swap v key else Ok tt
  else Ok tt.

(** ix_swap.rs:193-200 *)
Definition first_swap_eligible (c : config) (p : pool) (key : Z) (has_ref : bool) (v : view)
  : bool :=
  (c_first_swap_min_fee c =? 1) && (p_has_swap p =? 0)
  && is_ok (validate_contain_init v has_ref key).

(** The whole handler; the result also carries the [SwapResult2] (event data). *)
Definition swap_full (w : world) (a : swap_args) : res (world * swap_result) :=
  let c := w_config w in
  let p := w_pool w in
  do _ <- require (0 <? sa_amount0 a) EAmountIsZero ;;
  do cur <- current_point c (sa_slot a) (sa_now a) ;;
  do _ <- rate_limit_check c p (w_key w) cur (sa_dir a) (sa_view a) ;;
  let eligible := first_swap_eligible c p (w_key w) (is_some (sa_referral a)) (sa_view a) in
  do _ <- require (negb (is_curve_complete p (c_threshold c))) EPoolIsCompleted ;;
  do p1 <- update_pre_swap c p (sa_now a) ;;
  do fm <- get_fee_mode (c_collect_fee_mode c) (sa_dir a) (is_some (sa_referral a)) ;;
  do r <- process_swap c p1 (sa_mode a) (sa_amount0 a) (sa_amount1 a) fm (sa_dir a) cur
                       eligible ;;
  do p2 <- apply_swap_result c p1 r fm (sa_dir a) (sa_now a) ;;
  do w1 <- swap_transfers (set_w_pool w p2) a fm r ;;
  do w2 <- finish_curve w1 (sa_now a) ;;
  Ok (w2, r).

Definition do_swap (w : world) (a : swap_args) : res world :=
  do r <- swap_full w a ;; Ok (fst r).

(** ** Access control: access_control.rs:1-43, lib.rs attributes *)
Definition check_partner (w : world) (signer : Z) : res unit :=
  require (c_fee_claimer (w_config w) =? signer) EUnauthorized.
Definition check_creator (w : world) (signer : Z) : res unit :=
  require (p_creator (w_pool w) =? signer) EUnauthorized.
Definition check_admin (w : world) (signer : Z) : res unit :=
  require (existsb (fun k => k =? signer) (w_admins w)) EInvalidAdmin.

(** state/operator.rs:46-52; the operator account is the PDA of its whitelisted address. *)
Fixpoint find_operator (ops : list (Z * Z)) (k : Z) : option Z :=
  match ops with
  | [] => None
  | (a, perm) :: rest => if a =? k then Some perm else find_operator rest k
  end.
Definition check_operator (w : world) (signer bit : Z) : res unit :=
  match find_operator (w_operators w) signer with
  | Some perm => require (negb (Z.land perm (2 ^ bit) =? 0)) EInvalidPermission
  | None => Err EInvalidPermission
  end.
Definition CLAIM_PROTOCOL_FEE : Z := 0.
Definition ZAP_PROTOCOL_FEE : Z := 1.

(** admin/ix_create_operator_account.rs:34-48 ([init] fails on an existing account) *)
Definition create_operator (w : world) (signer addr perm : Z) : res world :=
  do _ <- check_admin w signer ;;
  do _ <- require (negb (is_some (find_operator (w_operators w) addr))) EOther ;;
  do _ <- require ((0 <? perm) && (perm <? 4)) EInvalidPermission ;;
  Ok (set_w_operators w ((addr, perm) :: w_operators w)).

(** admin/ix_close_operator_account.rs:4-19 *)
Definition close_operator (w : world) (signer addr : Z) : res world :=
  do _ <- check_admin w signer ;;
  do _ <- require (is_some (find_operator (w_operators w) addr)) EOther ;;
  Ok (set_w_operators w (filter (fun o => negb (fst o =? addr)) (w_operators w))).

(** ** Fee claims *)

(** partner/ix_claim_partner_trading_fee.rs:65-98; [to] owns the receiving accounts. *)
Definition claim_partner_fee (w : world) (signer to maxb maxq : Z) : res world :=
  do _ <- check_partner w signer ;;
  do r <- claim_partner_trading_fee (w_pool w) maxb maxq ;;
  let '(p, b, q) := r in
  do w1 <- pay_base (set_w_pool w p) (PKey to) b ;;
  pay_quote w1 (PKey to) q.

(** creator/ix_claim_creator_trading_fee.rs:59-94 *)
Definition claim_creator_fee (w : world) (signer to maxb maxq : Z) : res world :=
  do _ <- check_creator w signer ;;
  do r <- claim_creator_trading_fee (w_pool w) maxb maxq ;;
  let '(p, b, q) := r in
  do w1 <- pay_base (set_w_pool w p) (PKey to) b ;;
  pay_quote w1 (PKey to) q.

(** operator/ix_claim_protocol_fee.rs:61-113: to the treasury's token accounts. *)
Definition claim_protocol_fee (w : world) (signer maxb maxq : Z) : res world :=
  do _ <- check_operator w signer CLAIM_PROTOCOL_FEE ;;
  do r <- claim_protocol_base_fee (w_pool w) maxb ;;
  let '(p1, b) := r in
  do w1 <- (if 0 <? b then pay_base (set_w_pool w p1) PTreasury b
            else Ok (set_w_pool w p1)) ;;
  do r2 <- claim_protocol_quote_fee_and_surplus p1 (w_config w) maxq ;;
  let '(p2, q) := r2 in
  if 0 <? q then pay_quote (set_w_pool w1 p2) PTreasury q else Ok (set_w_pool w1 p2).

(** operator/ix_zap_protocol_fee.rs:90-160. [base] selects the token, [allowed] is
    "not in MINTS_DISALLOWED_TO_ZAP_OUT", [zap_ok] the result of the external
    validate_zap_out_to_treasury. The receiver is the operator's own account. *)
Definition zap_protocol_fee (w : world) (signer maxa : Z) (base allowed zap_ok : bool)
  : res world :=
  do _ <- check_operator w signer ZAP_PROTOCOL_FEE ;;
  do _ <- require allowed EMintRestrictedFromZap ;;
  do r <- (if base then claim_protocol_base_fee (w_pool w) maxa
           else claim_protocol_quote_fee_and_surplus (w_pool w) (w_config w) maxa) ;;
  let '(p, amount) := r in
  do _ <- require (0 <? amount) EAmountIsZero ;;
  do _ <- require zap_ok EOther ;;
  if base then pay_base (set_w_pool w p) (PKey signer) amount
  else pay_quote (set_w_pool w p) (PKey signer) amount.

(** partner/ix_withdraw_partner_surplus.rs:48-83 *)
Definition withdraw_partner_surplus (w : world) (signer to : Z) : res world :=
  do _ <- check_partner w signer ;;
  let p := w_pool w in
  let c := w_config w in
  do _ <- require (is_curve_complete p (c_threshold c)) ENotPermitToDoThisAction ;;
  do _ <- require (p_partner_surplus p =? 0) ESurplusHasBeenWithdraw ;;
  do a <- get_partner_surplus p c (c_threshold c) ;;
  do w1 <- pay_quote w (PKey to) a ;;
  Ok (set_w_pool w1 (set_partner_surplus p 1)).

(** creator/ix_withdraw_creator_surplus.rs:48-83 *)
Definition withdraw_creator_surplus (w : world) (signer to : Z) : res world :=
  do _ <- check_creator w signer ;;
  let p := w_pool w in
  let c := w_config w in
  do _ <- require (is_curve_complete p (c_threshold c)) ENotPermitToDoThisAction ;;
  do _ <- require (p_creator_surplus p =? 0) ESurplusHasBeenWithdraw ;;
  do a <- get_creator_surplus p c (c_threshold c) ;;
  do w1 <- pay_quote w (PKey to) a ;;
  Ok (set_w_pool w1 (set_creator_surplus p 1)).

(** migration/ix_withdraw_migration_fee.rs:70-133; flag 0 partner, 1 creator. *)
Definition withdraw_migration_fee (w : world) (signer to flag : Z) : res world :=
  let p := w_pool w in
  let c := w_config w in
  do _ <- require (is_curve_complete p (c_threshold c)) ENotPermitToDoThisAction ;;
  do d <- get_migration_fee_distribution c ;;
  let '(partner_fee, creator_fee) := d in
  if flag =? 0 then
    do _ <- require (signer =? c_fee_claimer c) ENotPermitToDoThisAction ;;
    do _ <- require (bit_unset (p_mig_fee_status p) PARTNER_MIGRATION_FEE_MASK)
                    EMigrationFeeHasBeenWithdraw ;;
    pay_quote (set_w_pool w (set_mig_fee_status p
                 (bit_flip (p_mig_fee_status p) PARTNER_MIGRATION_FEE_MASK)))
              (PKey to) partner_fee
  else if flag =? 1 then
    do _ <- require (signer =? p_creator p) ENotPermitToDoThisAction ;;
    do _ <- require (bit_unset (p_mig_fee_status p) CREATOR_MIGRATION_FEE_MASK)
                    EMigrationFeeHasBeenWithdraw ;;
    pay_quote (set_w_pool w (set_mig_fee_status p
                 (bit_flip (p_mig_fee_status p) CREATOR_MIGRATION_FEE_MASK)))
              (PKey to) creator_fee
  else Err ETypeCastFailed.

(** migration/withdraw_leftover.rs:55-100: anyone may call, the receiver is fixed. *)
Definition withdraw_leftover (w : world) : res world :=
  let p := w_pool w in
  let c := w_config w in
  do _ <- require (p_progress p =? CreatedPool) ENotPermitToDoThisAction ;;
  do _ <- require (is_fixed_supply c) ENotPermitToDoThisAction ;;
  do _ <- require (p_leftover p =? 0) ELeftoverHasBeenWithdraw ;;
  do fees <- get_protocol_and_trading_base_fee p ;;
  do a <- ssub (w_bvault w) fees ;;
  do a <- ssub a (p_mig_base_fee p) ;;
  do w1 <- pay_base w (PKey (c_leftover_receiver c)) a ;;
  Ok (set_w_pool w1 (set_leftover p 1)).

(** partner/ix_claim_partner_pool_creation_fee.rs:19-52 *)
Definition claim_partner_creation_fee (w : world) (signer to : Z) : res world :=
  do _ <- check_partner w signer ;;
  let p := w_pool w in
  do s <- split_pool_creation_fee (w_config w) ;;
  do _ <- require (0 <? snd s) EZeroPoolCreationFee ;;
  do _ <- require (bit_unset (p_creation_bits p) PARTNER_CREATION_FEE_MASK)
                  EPoolCreationFeeHasBeenClaimed ;;
  pay_lamports (set_w_pool w (set_creation_bits p
                  (bit_flip (p_creation_bits p) PARTNER_CREATION_FEE_MASK)))
               (PKey to) (snd s).

(** ix_claim_protocol_pool_creation_fee.rs:7 TOKEN_2022_POOL_WITH_OUTPUT_FEE_COLLECTION_CREATION_FEE *)
Definition LEGACY_CREATION_FEE : Z := 10000000.

(** operator/ix_claim_protocol_pool_creation_fee.rs:31-65 *)
Definition claim_protocol_creation_fee (w : world) (signer : Z) : res world :=
  do _ <- check_operator w signer CLAIM_PROTOCOL_FEE ;;
  let p := w_pool w in
  do r <- (if bit_unset (p_creation_bits p) PROTOCOL_CREATION_FEE_MASK then
             do s <- split_pool_creation_fee (w_config w) ;;
             Ok (set_creation_bits p (bit_flip (p_creation_bits p) PROTOCOL_CREATION_FEE_MASK),
                 fst s)
           else Ok (p, 0)) ;;
  let '(p1, fee) := r in
  do r2 <- (if negb (bit_unset (p_legacy_bits p1) LEGACY_CHARGED_MASK)
               && bit_unset (p_legacy_bits p1) LEGACY_CLAIMED_MASK then
              do f <- sadd U64_MAX fee LEGACY_CREATION_FEE ;;
              Ok (set_legacy_bits p1 (bit_flip (p_legacy_bits p1) LEGACY_CLAIMED_MASK), f)
            else Ok (p1, fee)) ;;
  let '(p2, fee2) := r2 in
  if 0 <? fee2 then pay_lamports (set_w_pool w p2) PTreasury fee2 else Ok (set_w_pool w p2).

(** ** Creator transfer: creator/ix_transfer_pool_creator.rs:11-93. In the CreatedPool state a
    MeteoraDamm pool must pass its metadata account. *)
Definition transfer_creator (w : world) (signer new : Z) : res world :=
  do _ <- check_creator w signer ;;
  do _ <- require (negb (new =? signer)) EInvalidNewCreator ;;
  let p := w_pool w in
  do _ <- (if p_progress p =? PreBondingCurve then Ok tt
           else if p_progress p =? CreatedPool then
             if c_migration_option (w_config w) =? 0 then
               do m <- ok_or (w_meta w) EInvalidAccount ;;
               do _ <- require ((m_partner_locked m =? 0) || (m_partner_lock_done m =? 1))
                               ENotPermitToDoThisAction ;;
               do _ <- require ((m_creator_locked m =? 0) || (m_creator_lock_done m =? 1))
                               ENotPermitToDoThisAction ;;
               do _ <- require ((m_creator_liq m =? 0) || (m_creator_claim_done m =? 1))
                               ENotPermitToDoThisAction ;;
               require ((m_partner_liq m =? 0) || (m_partner_claim_done m =? 1))
                       ENotPermitToDoThisAction
             else Ok tt
           else Err ENotPermitToDoThisAction) ;;
  Ok (set_w_pool w (set_creator p new)).

(** ** Migration *)

(** migration/create_locker.rs:73-136: permissionless; the locker program moves the total
    vesting amount from the base vault into the escrow. *)
Definition create_locker (w : world) : res world :=
  let p := w_pool w in
  let c := w_config w in
  do _ <- require (p_progress p =? PostBondingCurve) ENotPermitToDoThisAction ;;
  do t <- lv_total (c_vesting c) ;;
  do w1 <- pay_base w PEscrow t ;;
  Ok (set_w_escrow (set_w_pool w1 (set_progress p LockedVesting))
        (Some (p_creator p, t, to_create_vesting_escrow_params (c_vesting c) (p_finish p)))).

(** migration_meteora_damm_create_metadata.rs:38-58 (PDA, [init] once) *)
Definition create_v1_metadata (w : world) : res world :=
  do _ <- require (c_migration_option (w_config w) =? 0) EInvalidMigrationOption ;;
  do _ <- require (negb (is_some (w_meta w))) EOther ;;
  Ok (set_w_meta w (Some (mkMeta (c_fee_claimer (w_config w)) 0 0 0 0 0 0 0 0))).

(** The checks shared by migrate_meteora_damm_initialize_pool.rs:216-236 and
    migrate_damm_v2_initialize_pool.rs:518-535. *)
Definition migration_ready (w : world) (option_ : Z) : res unit :=
  let p := w_pool w in
  let c := w_config w in
  do _ <- require (p_progress p =? LockedVesting) ENotPermitToDoThisAction ;;
  do _ <- require (is_curve_complete p (c_threshold c)) EPoolIsIncompleted ;;
  require (c_migration_option c =? option_) EInvalidMigrationOption.

(** migrate_meteora_damm_initialize_pool.rs:238-268, migrate_damm_v2_initialize_pool.rs:536-580:
    included amounts, protocol fees, excluded amounts:
    (base fee, quote fee, excluded base, excluded quote). *)
Definition migration_split (w : world) (h : handler) : res (Z * Z * Z * Z) :=
  let p := w_pool w in
  let c := w_config w in
  do fees <- get_protocol_and_trading_base_fee p ;;
  do reserve <- ssub (w_bvault w) fees ;;
  do am <- migration_amounts_2 h (c_base_threshold c) (c_threshold c)
                               (c_migration_fee_pct c) reserve ;;
  let '(ib, iq) := am in
  do f <- migration_protocol_fees h (c_mig_price c) ib iq (p_mig_fee_bps p) ;;
  let '(fb, fq) := f in
  do eb <- ssub ib fb ;;
  do eq <- ssub iq fq ;;
  Ok (fb, fq, eb, eq).

(** Burning what is left: migrate_meteora_damm_initialize_pool.rs:276-308,
    migrate_damm_v2_initialize_pool.rs:705-742. *)
Definition burn_rest (w : world) (fb : Z) : res world :=
  do fees <- get_protocol_and_trading_base_fee (w_pool w) ;;
  do keep <- sadd U64_MAX fees fb ;;
  do lft <- ssub (w_bvault w) keep ;;
  do b <- get_burnable_amount (w_config w) lft ;;
  if 0 <? b then burn_base w b else Ok w.

(** migrate_meteora_damm_initialize_pool.rs:212-320. [config_ok]: validate_config_key.
    The DAMM v1 program takes exactly the two amounts it is given; [lp] is the amount of LP
    tokens it mints to the pool authority (external result). *)
Definition migrate_v1 (w : world) (config_ok : bool) (lp : Z) : res world :=
  do _ <- require config_ok EInvalidConfigAccount ;;
  do _ <- migration_ready w 0 ;;
  do m <- ok_or (w_meta w) EInvalidAccount ;;
  do s <- migration_split w Compounding ;;
  let '(fb, fq, eb, eq) := s in
  let p := set_mig_quote_fee (set_mig_base_fee (w_pool w) fb) fq in
  do w1 <- pay_base (set_w_pool w p) PDamm eb ;;
  do w2 <- pay_quote w1 PDamm eq ;;
  let w3 := set_w_pool w2 (set_is_migrated (w_pool w2) 1) in
  do w4 <- burn_rest w3 fb ;;
  do dist <- get_liquidity_distribution (w_config w) lp ;;
  do v1 <- to_damm_v1_distribution dist ;;
  let '(pl, pu, cl, cu) := v1 in
  let m' := mkMeta (m_partner m) pl pu cl cu (m_creator_lock_done m) (m_partner_lock_done m)
                   (m_creator_claim_done m) (m_partner_claim_done m) in
  let w5 := set_w_lp (set_w_meta w4 (Some m')) lp in
  Ok (set_w_pool w5 (set_progress (w_pool w5) CreatedPool)).

(** What the external DAMM v2 program does during a migration: the amounts it takes for the
    first position, the reserves and liquidity it then reports, the amounts it takes for the
    second position; and whether the caller supplied the second position accounts. *)
Record damm_v2_ext := mkExt {
  x_config_ok : bool;
  x_d1b : Z; x_d1q : Z;
  x_rbase : Z; x_rquote : Z; x_rliq : Z;
  x_d2b : Z; x_d2q : Z;
  x_second : bool }.

(** migrate_damm_v2_initialize_pool.rs:268-330: permanent lock, then vesting lock with
    parameters computed at the current time; (lib: po_vesting). *)
Definition lock_params (i : liq_item) (now : Z) : res (option vesting_params) :=
  do l <- li_locked i ;;
  if 0 <? l then
    if 0 <? li_vested i then
      do vp <- damm_v2_vesting_parameters (li_vesting i) (li_vested i) now ;; Ok (Some vp)
    else Ok None
  else Ok None.

(** migrate_damm_v2_initialize_pool.rs:497-753. Assumption about the external program, used
    as a guard on [x]: it takes non-negative amounts and, for the second position, at most the
    leftover amounts from which this program computed the liquidity (theorems C44 show that
    the DAMM v2 formulas satisfy it). *)
Definition migrate_v2 (w : world) (x : damm_v2_ext) (now : Z) : res world :=
  do _ <- require (x_config_ok x) EInvalidConfigAccount ;;
  do _ <- migration_ready w 1 ;;
  let c := w_config w in
  do _ <- require (migrated_mode_ok (c_migrated_collect_mode c)) ETypeCastFailed ;;
  let h := get_migration_handler 1 (c_migrated_collect_mode c) in
  do s <- migration_split w h ;;
  let '(fb, fq, eb, eq) := s in
  let p := set_mig_quote_fee (set_mig_base_fee (w_pool w) fb) fq in
  do info <- initial_pool_information h (c_mig_price c) eb eq ;;
  let '(price, liq, dead) := info in
  do dist <- get_liquidity_distribution c liq ;;
  let '(partner, creator) := dist in
  do tp <- li_total partner ;;
  do tc <- li_total creator ;;
  let '(first, second, owner1, owner2) :=
    if tc <? tp then (partner, creator, c_fee_claimer c, p_creator p)
    else (creator, partner, p_creator p, c_fee_claimer c) in
  do t1 <- li_total first ;;
  do liq1 <- sadd U128_MAX t1 dead ;;
  do vp1 <- lock_params first now ;;
  do _ <- require ((0 <=? x_d1b x) && (0 <=? x_d1q x)) EOther ;;
  do w1 <- pay_base (set_w_pool w p) PDamm (x_d1b x) ;;
  do w2 <- pay_quote w1 PDamm (x_d1q x) ;;
  let pos1 := mkPosition owner1 liq1 (li_perm first) (li_vested first) vp1 price in
  do lb <- ssub eb (x_d1b x) ;;
  do lq <- ssub eq (x_d1q x) ;;
  do liq2 <- calculate_liquidity_delta h (c_mig_price c) lb lq (x_rbase x) (x_rquote x)
                                       (x_rliq x) ;;
  do w3 <- (if 0 <? liq2 then
              do second' <- adjust_liquidity second liq2 ;;
              do _ <- require (x_second x) EInvalidAccount ;;
              do vp2 <- lock_params second' now ;;
              do _ <- require ((0 <=? x_d2b x) && (0 <=? x_d2q x)
                               && (x_d2b x <=? lb) && (x_d2q x <=? lq)) EOther ;;
              do w3 <- pay_base w2 PDamm (x_d2b x) ;;
              do w4 <- pay_quote w3 PDamm (x_d2q x) ;;
              Ok (set_w_positions w4
                    [pos1; mkPosition owner2 liq2 (li_perm second') (li_vested second') vp2 price])
            else Ok (set_w_positions w2 [pos1])) ;;
  let w5 := set_w_pool w3 (set_is_migrated (w_pool w3) 1) in
  do w6 <- burn_rest w5 fb ;;
  Ok (set_w_pool w6 (set_progress (w_pool w6) CreatedPool)).

(** ** DAMM v1 LP tokens: meteora_damm_metadata_state.rs:59-182 *)
Definition lock_as_creator (m : v1meta) : res (v1meta * Z) :=
  do _ <- require (negb (m_creator_lock_done m =? 1)) ENotPermitToDoThisAction ;;
  do _ <- require (negb (m_creator_locked m =? 0)) ENotPermitToDoThisAction ;;
  Ok (mkMeta (m_partner m) (m_partner_locked m) (m_partner_liq m) (m_creator_locked m)
             (m_creator_liq m) 1 (m_partner_lock_done m) (m_creator_claim_done m)
             (m_partner_claim_done m), m_creator_locked m).
Definition lock_as_partner (m : v1meta) : res (v1meta * Z) :=
  do _ <- require (negb (m_partner_lock_done m =? 1)) ENotPermitToDoThisAction ;;
  do _ <- require (negb (m_partner_locked m =? 0)) ENotPermitToDoThisAction ;;
  Ok (mkMeta (m_partner m) (m_partner_locked m) (m_partner_liq m) (m_creator_locked m)
             (m_creator_liq m) (m_creator_lock_done m) 1 (m_creator_claim_done m)
             (m_partner_claim_done m), m_partner_locked m).
Definition lock_as_self (m : v1meta) : res (v1meta * Z) :=
  do _ <- require (negb (m_creator_lock_done m =? 1) && negb (m_partner_lock_done m =? 1))
                  ENotPermitToDoThisAction ;;
  do t <- sadd U64_MAX (m_partner_locked m) (m_creator_locked m) ;;
  do _ <- require (negb (t =? 0)) ENotPermitToDoThisAction ;;
  Ok (mkMeta (m_partner m) (m_partner_locked m) (m_partner_liq m) (m_creator_locked m)
             (m_creator_liq m) 1 1 (m_creator_claim_done m) (m_partner_claim_done m), t).
Definition claim_as_creator (m : v1meta) : res (v1meta * Z) :=
  do _ <- require (negb (m_creator_claim_done m =? 1)) ENotPermitToDoThisAction ;;
  do _ <- require (negb (m_creator_liq m =? 0)) ENotPermitToDoThisAction ;;
  Ok (mkMeta (m_partner m) (m_partner_locked m) (m_partner_liq m) (m_creator_locked m)
             (m_creator_liq m) (m_creator_lock_done m) (m_partner_lock_done m) 1
             (m_partner_claim_done m), m_creator_liq m).
Definition claim_as_partner (m : v1meta) : res (v1meta * Z) :=
  do _ <- require (negb (m_partner_claim_done m =? 1)) ENotPermitToDoThisAction ;;
  do _ <- require (negb (m_partner_liq m =? 0)) ENotPermitToDoThisAction ;;
  Ok (mkMeta (m_partner m) (m_partner_locked m) (m_partner_liq m) (m_creator_locked m)
             (m_creator_liq m) (m_creator_lock_done m) (m_partner_lock_done m)
             (m_creator_claim_done m) 1, m_partner_liq m).
Definition claim_as_self (m : v1meta) : res (v1meta * Z) :=
  do _ <- require (negb (m_creator_claim_done m =? 1) && negb (m_partner_claim_done m =? 1))
                  ENotPermitToDoThisAction ;;
  do t <- sadd U64_MAX (m_partner_liq m) (m_creator_liq m) ;;
  do _ <- require (negb (t =? 0)) ENotPermitToDoThisAction ;;
  Ok (mkMeta (m_partner m) (m_partner_locked m) (m_partner_liq m) (m_creator_locked m)
             (m_creator_liq m) (m_creator_lock_done m) (m_partner_lock_done m) 1 1, t).

(** meteora_damm_lock_lp_token.rs:113-138: permissionless for [owner]; the DAMM v1 program
    locks exactly the amount for [owner]. *)
Definition lock_lp (w : world) (owner : Z) : res world :=
  do _ <- require (p_progress (w_pool w) =? CreatedPool) ENotPermitToDoThisAction ;;
  do m <- ok_or (w_meta w) EInvalidAccount ;;
  do r <- (match owner =? m_partner m, owner =? p_creator (w_pool w) with
           | true, true => lock_as_self m
           | true, false => lock_as_partner m
           | false, true => lock_as_creator m
           | false, false => Err EInvalidOwnerAccount
           end) ;;
  let '(m', a) := r in
  pay_lp (set_w_meta w (Some m')) (PLock owner) a.

(** meteora_damm_claim_lp_token.rs:74-99: to the token account of [owner]. *)
Definition claim_lp (w : world) (owner : Z) : res world :=
  do _ <- require (p_progress (w_pool w) =? CreatedPool) ENotPermitToDoThisAction ;;
  do m <- ok_or (w_meta w) EInvalidAccount ;;
  do r <- (match owner =? m_partner m, owner =? p_creator (w_pool w) with
           | true, true => claim_as_self m
           | true, false => claim_as_partner m
           | false, true => claim_as_creator m
           | false, false => Err EInvalidOwnerAccount
           end) ;;
  let '(m', a) := r in
  pay_lp (set_w_meta w (Some m')) (PKey owner) a.

(** ** Instructions and histories *)

Inductive op :=
  | OSwap (a : swap_args)
  | OClaimPartner (signer to maxb maxq : Z)
  | OClaimCreator (signer to maxb maxq : Z)
  | OClaimProtocol (signer maxb maxq : Z)
  | OZap (signer maxa : Z) (base allowed zap_ok : bool)
  | OPartnerSurplus (signer to : Z)
  | OCreatorSurplus (signer to : Z)
  | OMigrationFee (signer to flag : Z)
  | OLeftover
  | OPartnerCreationFee (signer to : Z)
  | OProtocolCreationFee (signer : Z)
  | OTransferCreator (signer new : Z)
  | OCreateLocker
  | OCreateMetadata
  | OMigrateV1 (config_ok : bool) (lp : Z)
  | OMigrateV2 (x : damm_v2_ext) (now : Z)
  | OLockLp (owner : Z)
  | OClaimLp (owner : Z)
  | OCreateOperator (signer addr perm : Z)
  | OCloseOperator (signer addr : Z)
  (* moves of the outside world: anybody may send tokens or lamports to the pool's accounts,
     the holder of the mint authority may mint base tokens, and holders may burn their own *)
  | ODonateBase (from a : Z)
  | ODonateQuote (from a : Z)
  | ODonateSol (from a : Z)
  | OMint (signer to a : Z)
  | OBurn (signer a : Z).

(** Arguments of integer type arrive within their Rust type. *)
Definition u64b (z : Z) : bool := (0 <=? z) && (z <=? U64_MAX).
Definition args_ok (o : op) : bool :=
  match o with
  | OSwap a => u64b (sa_amount0 a) && u64b (sa_amount1 a) && u64b (sa_slot a) && u64b (sa_now a)
  | OClaimPartner _ _ b q | OClaimCreator _ _ b q | OClaimProtocol _ b q => u64b b && u64b q
  | OZap _ a _ _ _ => u64b a
  | OMigrateV1 _ lp => u64b lp
  | OMigrateV2 x now => u64b now && u64b (x_rbase x) && u64b (x_rquote x)
                        && (0 <=? x_rliq x) && (x_rliq x <=? U128_MAX)
  | OCreateOperator _ _ perm => (0 <=? perm) && (perm <=? U128_MAX)
  | ODonateBase _ a | ODonateQuote _ a | ODonateSol _ a | OMint _ _ a | OBurn _ a => u64b a
  | _ => true
  end.

Definition exec (w : world) (o : op) : res world :=
  do _ <- require (args_ok o) EInvalidInput ;;
  match o with
  | OSwap a => do_swap w a
  | OClaimPartner s t b q => claim_partner_fee w s t b q
  | OClaimCreator s t b q => claim_creator_fee w s t b q
  | OClaimProtocol s b q => claim_protocol_fee w s b q
  | OZap s a base al ok => zap_protocol_fee w s a base al ok
  | OPartnerSurplus s t => withdraw_partner_surplus w s t
  | OCreatorSurplus s t => withdraw_creator_surplus w s t
  | OMigrationFee s t f => withdraw_migration_fee w s t f
  | OLeftover => withdraw_leftover w
  | OPartnerCreationFee s t => claim_partner_creation_fee w s t
  | OProtocolCreationFee s => claim_protocol_creation_fee w s
  | OTransferCreator s n => transfer_creator w s n
  | OCreateLocker => create_locker w
  | OCreateMetadata => create_v1_metadata w
  | OMigrateV1 ok lp => migrate_v1 w ok lp
  | OMigrateV2 x now => migrate_v2 w x now
  | OLockLp o => lock_lp w o
  | OClaimLp o => claim_lp w o
  | OCreateOperator s a p => create_operator w s a p
  | OCloseOperator s a => close_operator w s a
  | ODonateBase k a => recv_base w (PKey k) a
  | ODonateQuote k a => recv_quote w (PKey k) a
  | ODonateSol k a =>
    Ok (log (set_w_lamports w (w_lamports w + a)) (mkTransfer TSol (PKey k) PPool a))
  | OMint s k a =>
    do _ <- require (match w_mint_auth w with Some m => m =? s | None => false end)
                    EUnauthorized ;;
    do t <- sadd U64_MAX (w_supply w) a ;;
    Ok (log (set_w_supply w t) (mkTransfer TBase PMint (PKey k) a))
  (* a holder owns at most what is not in the vault *)
  | OBurn s a =>
    do _ <- require (a <=? w_supply w - w_bvault w) ETokenInsufficientFunds ;;
    Ok (log (set_w_supply w (w_supply w - a)) (mkTransfer TBase (PKey s) PMint a))
  end.

(** A failed instruction is rolled back by the runtime. *)
Definition step (w : world) (o : op) : world :=
  match exec w o with Ok w' => w' | Err _ => w end.

Definition run (w : world) (ops : list op) : world := fold_left step ops w.
