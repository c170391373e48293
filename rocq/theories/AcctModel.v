(** * Accounts: many pools, and callers who choose every account they pass.
      Models the [#[derive(Accounts)]] structures of src/instructions/** (has_one, address, seeds,
      token::mint, associated_token constraints and account types) and the account checks made in the
      handlers, on top of the single-pool handlers of SystemModel. *)
From Coq Require Import ZArith List Bool.
From Verif Require Import Base MathModel CurveModel FeeModel ConfigModel PoolModel TxModel SystemModel.
Import ListNotations.
Open Scope Z_scope.

(** ** Addresses

    [Ext k]: an address that is not derived by this program (wallets, keypair accounts such as
    configs and mints, addresses of other programs). The other constructors are derived addresses,
    which nobody can sign for, except the pool authority through this program. Simplification: the
    derivation is free of collisions by construction (the real one is so up to hash collisions). *)
Inductive addr :=
  | Ext (k : Z)
  | Auth                                  (* const_pda.rs: the pool authority, shared by all pools *)
  | PoolA (config hi lo : Z)              (* ix_initialize_virtual_pool_with_spl_token.rs:72-86 *)
  | VaultA (mint : Z) (pool : addr)       (* ix_initialize_virtual_pool_with_spl_token.rs:88-118 *)
  | MetaA (pool : addr)                   (* migration_meteora_damm_create_metadata.rs:19-29 *)
  | AtaA (owner : addr) (mint : Z).       (* associated token account *)

Definition addr_dec (a b : addr) : {a = b} + {a <> b}.
Proof. decide equality; apply Z.eq_dec. Defined.
Definition addr_eqb (a b : addr) : bool := if addr_dec a b then true else false.

(** The pool address as a number, for the transaction view of TxModel. *)
Definition zig (z : Z) : Z := if 0 <=? z then 2 * z else - 2 * z - 1.
Definition pair_code (x y : Z) : Z := (x + y) * (x + y + 1) / 2 + y.
Definition code (a : addr) : Z :=
  match a with
  | PoolA c h l => pair_code (pair_code (zig c) (zig h)) (zig l)
  | _ => 0
  end.

(** ** Accounts *)

(** state/virtual_pool.rs:120-180: the pool with the keys it records; [pa_lamports] counts the lamports
    above the rent minimum. *)
Record poolacct := mkPoolAcct {
  pa_pool : pool; pa_config : Z; pa_bmint : Z; pa_bvault : addr; pa_qvault : addr; pa_lamports : Z }.

(** The type of an account is what its owner program and discriminator say. Operator accounts are kept
    in [b_ops]. [AMeta]: meteora_damm_metadata_state.rs:5-36; the LP mint is [None] until it is set. *)
Inductive acct :=
  | AMint
  | AConfig (c : config)
  | APool (p : poolacct)
  | ATok (mint : Z) (owner : addr) (amount : Z)
  | AMeta (m : v1meta) (virtual_pool : addr) (lp_mint : option Z).

Record bank := mkBank {
  b_acc : addr -> option acct;
  b_admins : list Z;           (* admin/auth.rs:8-16 *)
  b_ops : list (Z * Z);        (* operator accounts: (whitelisted_address, permission) *)
  b_treasury : Z }.

Definition put (b : bank) (a : addr) (x : acct) : bank :=
  mkBank (fun y => if addr_dec a y then Some x else b_acc b y) (b_admins b) (b_ops b) (b_treasury b).
Definition set_b_ops (b : bank) (l : list (Z * Z)) : bank :=
  mkBank (b_acc b) (b_admins b) l (b_treasury b).

(** ** Loading: AccountLoader and InterfaceAccount check the type *)
Definition load_config (b : bank) (k : Z) : res config :=
  match b_acc b (Ext k) with Some (AConfig c) => Ok c | _ => Err EInvalidAccount end.
Definition load_pool (b : bank) (a : addr) : res poolacct :=
  match b_acc b a with Some (APool p) => Ok p | _ => Err EInvalidAccount end.
Definition load_tok (b : bank) (a : addr) : res (Z * addr * Z) :=
  match b_acc b a with Some (ATok m o n) => Ok (m, o, n) | _ => Err EInvalidAccount end.
Definition load_meta (b : bank) (a : addr) : res (v1meta * addr * option Z) :=
  match b_acc b a with Some (AMeta m v l) => Ok (m, v, l) | _ => Err EInvalidAccount end.
Definition unused (b : bank) (a : addr) : bool :=
  match b_acc b a with None => true | Some _ => false end.

(** InterfaceAccount<Mint> *)
Definition load_mint (b : bank) (k : Z) : res unit :=
  match b_acc b (Ext k) with Some AMint => Ok tt | _ => Err EInvalidAccount end.

(** The account constraints. *)
Definition same (a b : addr) : res unit := require (addr_eqb a b) EInvalidAccount.
Definition samek (a b : Z) : res unit := require (a =? b) EInvalidAccount.

(** token::mint on a vault, or the mint check of transfer_checked. *)
Definition has_mint (b : bank) (a : addr) (m : Z) : res unit :=
  do t <- load_tok b a ;; let '(m', _, _) := t in samek m' m.
(** associated_token::mint and authority; utils/token.rs:191-206 [validate_ata_token]. *)
Definition is_ata (b : bank) (a owner : addr) (m : Z) : res unit :=
  do _ <- same a (AtaA owner m) ;;
  do t <- load_tok b a ;; let '(m', o', _) := t in
  do _ <- samek m' m ;; same o' owner.

(** ** Token movements outside the vaults: the token program *)

(** Arrival of tokens in an account of the same mint. Amounts are u64. *)
Definition credit (b : bank) (a : addr) (m n : Z) : res bank :=
  do t <- load_tok b a ;; let '(m', o, x) := t in
  do _ <- samek m' m ;;
  do _ <- require (u64b n) EOther ;;
  do y <- sadd U64_MAX x n ;;
  Ok (put b a (ATok m' o y)).
(** Tokens leave an account of the signer. *)
Definition debit (b : bank) (a : addr) (m signer n : Z) : res bank :=
  do t <- load_tok b a ;; let '(m', o, x) := t in
  do _ <- samek m' m ;;
  do _ <- same o (Ext signer) ;;
  do _ <- require (n <=? x) ETokenInsufficientFunds ;;
  Ok (put b a (ATok m' o (x - n))).
(** Lamports sent to a pool account; other lamport balances are not tracked. *)
Definition credit_sol (b : bank) (a : addr) (n : Z) : res bank :=
  do _ <- require (u64b n) EOther ;;
  match b_acc b a with
  | Some (APool p) => Ok (put b a (APool (mkPoolAcct (pa_pool p) (pa_config p) (pa_bmint p) (pa_bvault p)
                                           (pa_qvault p) (pa_lamports p + n))))
  | _ => Ok b
  end.

(** The transfers of a handler that leave the pool for an account the caller named: each goes to the
    first address given for its token that has not been used yet. Tokens sent to another program (the
    DAMM pool, the escrow) or burned go to no tracked account. *)
Fixpoint take_dst (k : token) (ds : list (token * addr)) : option (addr * list (token * addr)) :=
  match ds with
  | [] => None
  | (k', a) :: rest =>
    if match k, k' with TBase, TBase | TQuote, TQuote | TSol, TSol | TLp, TLp => true | _, _ => false end
    then Some (a, rest)
    else match take_dst k rest with Some (r, rest') => Some (r, (k', a) :: rest') | None => None end
  end.

Definition leaves (t : transfer) : bool :=
  match t_from t, t_to t with
  | PPool, PKey _ | PPool, PTreasury => true
  | _, _ => false
  end.

Fixpoint deliver (b : bank) (mint_of : token -> Z) (ts : list transfer) (ds : list (token * addr)) : res bank :=
  match ts with
  | [] => Ok b
  | t :: rest =>
    if leaves t then
      match take_dst (t_token t) ds with
      | Some (a, ds') =>
        do b' <- (match t_token t with
                  | TSol => credit_sol b a (t_amount t)
                  | k => credit b a (mint_of k) (t_amount t)
                  end) ;;
        deliver b' mint_of rest ds'
      | None => Err EInvalidAccount
      end
    else deliver b mint_of rest ds
  end.

(** What a handler takes from the caller's account. *)
Definition taken (ts : list transfer) : Z :=
  fold_right (fun t s => match t_from t, t_to t with PKey _, PPool => t_amount t + s | _, _ => s end) 0 ts.
Definition sent (k : token) (ts : list transfer) : Z :=
  fold_right (fun t s => if leaves t then match t_token t, k with
                           | TBase, TBase | TQuote, TQuote | TSol, TSol | TLp, TLp => t_amount t + s
                           | _, _ => s end else s) 0 ts.

(** ** Running a handler on the accounts passed *)

(** The metadata of a pool and the LP tokens held for it. *)
Definition meta_at (b : bank) (pool : addr) : option v1meta :=
  match b_acc b (MetaA pool) with Some (AMeta m _ _) => Some m | _ => None end.
Definition lp_at (b : bank) (pool : addr) : Z :=
  match b_acc b (MetaA pool) with
  | Some (AMeta _ _ (Some l)) =>
    match b_acc b (AtaA Auth l) with Some (ATok _ Auth n) => n | _ => 0 end
  | _ => 0
  end.

(** The handler reads the accounts it is given: [pool], [config], the two vaults, the metadata and the
    LP balance. Supply, authorities, escrow and positions belong to other programs and are not part of
    the account model; no handler reads them. *)
Definition loaded (b : bank) (pool : addr) (p : poolacct) (c : config) (nb nq : Z) (m : option v1meta) (lp : Z)
  : world :=
  mkWorld (code pool) c (pa_pool p) nb nq (pa_lamports p) 0 None None m lp None [] (b_admins b) (b_ops b) [].

(** The writes: the pool account and the two vaults. *)
Definition stored (b : bank) (pool : addr) (p : poolacct) (bvault qvault : addr) (w : world) : bank :=
  let b1 := put b pool (APool (mkPoolAcct (w_pool w) (pa_config p) (pa_bmint p) (pa_bvault p) (pa_qvault p)
                                 (w_lamports w))) in
  let b2 := match b_acc b1 bvault with Some (ATok m o _) => put b1 bvault (ATok m o (w_bvault w)) | _ => b1 end in
  match b_acc b2 qvault with Some (ATok m o _) => put b2 qvault (ATok m o (w_qvault w)) | _ => b2 end.

(** A handler that is not given one of these accounts does not read it; the model then reads the one
    the pool records, so that the world is complete. *)
Definition run_on (b : bank) (pool : addr) (config : Z) (bvault qvault : addr) (m : option v1meta) (lp : Z)
    (o : op) : res (world * bank) :=
  do p <- load_pool b pool ;;
  do c <- load_config b config ;;
  do tb <- load_tok b bvault ;;
  do tq <- load_tok b qvault ;;
  do w <- exec (loaded b pool p c (snd tb) (snd tq) m lp) o ;;
  Ok (w, stored b pool p bvault qvault w).

Definition mints (bmint qmint lp : Z) (k : token) : Z :=
  match k with TBase => bmint | TQuote => qmint | TLp => lp | TSol => 0 end.

(** ** Instructions

    Signers are addresses outside this program. The clock ([slot], [now]) and the view of the current
    transaction are arguments. Token programs, event authorities and rent payers are omitted. *)
Inductive instr :=
  | ICreateConfig (key : Z) (q : config_params) (supported spl : bool) (now qmint claimer leftover : Z)
  | IInitPool (config bmint qmint creator payer token_type slot now : Z)
  | ISwap (pool : addr) (config : Z) (bvault qvault : addr) (bmint qmint : Z) (inp out : addr)
      (referral : option addr) (signer mode a0 a1 slot now : Z) (v : view)
  | IClaimPartner (pool : addr) (config : Z) (bvault qvault : addr) (bmint qmint : Z) (ta tb : addr)
      (signer maxb maxq : Z)
  | IClaimCreator (pool bvault qvault : addr) (bmint qmint : Z) (ta tb : addr) (signer maxb maxq : Z)
  | IClaimProtocol (pool : addr) (config : Z) (bvault qvault : addr) (bmint qmint : Z) (ta tb : addr)
      (operator signer maxb maxq : Z)
  | IZap (pool : addr) (config : Z) (vault : addr) (mint : Z) (receiver : addr) (operator signer maxa : Z)
      (allowed zap_ok : bool)
  | IPartnerSurplus (pool : addr) (config : Z) (qvault : addr) (qmint : Z) (dst : addr) (signer : Z)
  | ICreatorSurplus (pool : addr) (config : Z) (qvault : addr) (qmint : Z) (dst : addr) (signer : Z)
  | IMigrationFee (pool : addr) (config : Z) (qvault : addr) (qmint : Z) (dst : addr) (signer flag : Z)
  | ILeftover (pool : addr) (config : Z) (bvault : addr) (bmint : Z) (dst : addr) (receiver : Z)
  | IPartnerCreationFee (pool : addr) (config : Z) (receiver : addr) (signer : Z)
  | IProtocolCreationFee (pool : addr) (config operator signer : Z)
  | ITransferCreator (pool : addr) (config signer new : Z) (meta : option addr)
  | ICreateLocker (pool : addr) (config : Z) (bvault : addr) (bmint creator : Z)
  | ICreateMetadata (pool : addr) (config : Z) (meta : addr)
  | IMigrateV1 (pool : addr) (config : Z) (bvault qvault meta : addr) (lp_mint : Z) (config_ok : bool) (lp : Z)
  | IMigrateV2 (pool : addr) (config : Z) (bvault qvault : addr) (bmint qmint : Z) (x : damm_v2_ext) (now : Z)
  | ILockLp (pool meta : addr) (lp_mint : Z) (source : addr) (owner : Z)
  | IClaimLp (pool meta : addr) (lp_mint : Z) (source dst : addr) (owner : Z)
  | ICreateOperator (signer who perm : Z)
  | ICloseOperator (signer who : Z)
  (* the rest of the world: tokens or lamports sent to any account, a token account changed in any way
     by its owner, new mints and token accounts at addresses that this program does not derive *)
  | XDeposit (a : addr) (mint n : Z)
  | XSol (a : addr) (n : Z)
  | XOwner (signer : Z) (a owner : addr) (n : Z)
  | XMint (mint : Z)
  | XAccount (a : addr) (mint : Z) (owner : addr) (n : Z).

(** partner/ix_create_config.rs:539-560: the config is a new account; the quote mint is a mint. *)
Definition exec_config (b : bank) key q supported spl now qmint claimer leftover : res bank :=
  do _ <- require (unused b (Ext key)) EOther ;;
  do _ <- load_mint b qmint ;;
  do c <- create_config q supported spl now qmint claimer leftover ;;
  Ok (put b (Ext key) (AConfig c)).

(** initialize_pool/ix_initialize_virtual_pool_with_spl_token.rs:43-138, token2022.rs:28-117: the mint,
    the pool and the two vaults are created ([init] fails on a used address). *)
Definition exec_init (b : bank) (config bmint qmint creator payer ty slot now : Z) : res bank :=
  do c <- load_config b config ;;
  do _ <- samek (c_quote_mint c) qmint ;;
  do _ <- load_mint b qmint ;;
  let pool := PoolA config (Z.max bmint qmint) (Z.min bmint qmint) in
  let bv := VaultA bmint pool in
  let qv := VaultA qmint pool in
  do _ <- require (unused b (Ext bmint)) EOther ;;
  do w <- initialize_pool c (code pool) creator payer ty slot now (b_admins b) (b_ops b) ;;
  let b1 := put b (Ext bmint) AMint in
  do _ <- require (unused b1 pool) EOther ;;
  let b2 := put b1 pool (APool (mkPoolAcct (w_pool w) config bmint bv qv (w_lamports w))) in
  do _ <- require (unused b2 bv) EOther ;;
  let b3 := put b2 bv (ATok bmint Auth (w_bvault w)) in
  do _ <- require (unused b3 qv) EOther ;;
  Ok (put b3 qv (ATok qmint Auth (w_qvault w))).

(** swap/ix_swap.rs:67-125 *)
Definition exec_swap (b : bank) (pool : addr) (config : Z) (bvault qvault : addr) (bmint qmint : Z)
    (inp out : addr) (referral : option addr) (signer mode a0 a1 slot now : Z) (v : view) : res bank :=
  do p <- load_pool b pool ;;
  do _ <- same (pa_bvault p) bvault ;;
  do _ <- same (pa_qvault p) qvault ;;
  do _ <- samek (pa_config p) config ;;
  do _ <- has_mint b bvault bmint ;;
  do _ <- has_mint b qvault qmint ;;
  do ti <- load_tok b inp ;; let '(mi, _, _) := ti in
  do _ <- load_tok b out ;;
  do _ <- (match referral with Some r => do _ <- load_tok b r ;; Ok tt | None => Ok tt end) ;;
  let d := if mi =? bmint then BaseToQuote else QuoteToBase in
  let o := OSwap (mkSwapArgs signer (match referral with Some _ => Some 0 | None => None end) d mode a0 a1
                    slot now v) in
  do r <- run_on b pool config bvault qvault (meta_at b pool) (lp_at b pool) o ;;
  let '(w, b1) := r in
  do b2 <- debit b1 inp (match d with BaseToQuote => bmint | QuoteToBase => qmint end) signer (taken (w_log w)) ;;
  let dst := match d with BaseToQuote => (TQuote, out) | QuoteToBase => (TBase, out) end in
  deliver b2 (mints bmint qmint 0) (w_log w)
    (dst :: match referral with Some r => [(TBase, r); (TQuote, r)] | None => [] end).

(** partner/ix_claim_partner_trading_fee.rs:13-62 *)
Definition exec_claim_partner (b : bank) (pool : addr) (config : Z) (bvault qvault : addr) (bmint qmint : Z)
    (ta tb : addr) (signer maxb maxq : Z) : res bank :=
  do c <- load_config b config ;;
  do _ <- samek (c_quote_mint c) qmint ;;
  do p <- load_pool b pool ;;
  do _ <- same (pa_bvault p) bvault ;;
  do _ <- same (pa_qvault p) qvault ;;
  do _ <- samek (pa_bmint p) bmint ;;
  do _ <- samek (pa_config p) config ;;
  do _ <- load_tok b ta ;;
  do _ <- load_tok b tb ;;
  do _ <- has_mint b bvault bmint ;;
  do _ <- has_mint b qvault qmint ;;
  do r <- run_on b pool config bvault qvault (meta_at b pool) (lp_at b pool)
                 (OClaimPartner signer signer maxb maxq) ;;
  let '(w, b1) := r in
  deliver b1 (mints bmint qmint 0) (w_log w) [(TBase, ta); (TQuote, tb)].

(** creator/ix_claim_creator_trading_fee.rs:11-56 (no config account) *)
Definition exec_claim_creator (b : bank) (pool bvault qvault : addr) (bmint qmint : Z) (ta tb : addr)
    (signer maxb maxq : Z) : res bank :=
  do p <- load_pool b pool ;;
  do _ <- same (pa_bvault p) bvault ;;
  do _ <- same (pa_qvault p) qvault ;;
  do _ <- samek (pa_bmint p) bmint ;;
  do _ <- load_tok b ta ;;
  do _ <- load_tok b tb ;;
  do _ <- has_mint b bvault bmint ;;
  do _ <- has_mint b qvault qmint ;;
  do r <- run_on b pool (pa_config p) bvault qvault (meta_at b pool) (lp_at b pool)
                 (OClaimCreator signer signer maxb maxq) ;;
  let '(w, b1) := r in
  deliver b1 (mints bmint qmint 0) (w_log w) [(TBase, ta); (TQuote, tb)].

(** operator/ix_claim_protocol_fee.rs:13-113; the receiving accounts are checked only when something
    is paid. *)
Definition exec_claim_protocol (b : bank) (pool : addr) (config : Z) (bvault qvault : addr) (bmint qmint : Z)
    (ta tb : addr) (operator signer maxb maxq : Z) : res bank :=
  do c <- load_config b config ;;
  do _ <- samek (c_quote_mint c) qmint ;;
  do p <- load_pool b pool ;;
  do _ <- same (pa_bvault p) bvault ;;
  do _ <- same (pa_qvault p) qvault ;;
  do _ <- samek (pa_bmint p) bmint ;;
  do _ <- samek (pa_config p) config ;;
  do _ <- has_mint b bvault bmint ;;
  do _ <- has_mint b qvault qmint ;;
  do _ <- require (operator =? signer) EInvalidPermission ;;
  do r <- run_on b pool config bvault qvault (meta_at b pool) (lp_at b pool)
                 (OClaimProtocol signer maxb maxq) ;;
  let '(w, b1) := r in
  do _ <- (if 0 <? sent TBase (w_log w) then is_ata b ta (Ext (b_treasury b)) bmint else Ok tt) ;;
  do _ <- (if 0 <? sent TQuote (w_log w) then is_ata b tb (Ext (b_treasury b)) qmint else Ok tt) ;;
  deliver b1 (mints bmint qmint 0) (w_log w) [(TBase, ta); (TQuote, tb)].

(** operator/ix_zap_protocol_fee.rs:16-148 *)
Definition exec_zap (b : bank) (pool : addr) (config : Z) (vault : addr) (mint : Z) (receiver : addr)
    (operator signer maxa : Z) (allowed zap_ok : bool) : res bank :=
  do c <- load_config b config ;;
  do p <- load_pool b pool ;;
  do _ <- samek (pa_config p) config ;;
  do _ <- load_tok b vault ;;
  do _ <- require (operator =? signer) EInvalidPermission ;;
  do _ <- require ((mint =? pa_bmint p) || (mint =? c_quote_mint c)) EInvalidAccount ;;
  let base := mint =? pa_bmint p in
  do _ <- same vault (if base then pa_bvault p else pa_qvault p) ;;
  do r <- run_on b pool config (if base then vault else pa_bvault p) (if base then pa_qvault p else vault)
                 (meta_at b pool) (lp_at b pool) (OZap signer maxa base allowed zap_ok) ;;
  let '(w, b1) := r in
  do _ <- is_ata b receiver (Ext signer) mint ;;
  do _ <- has_mint b vault mint ;;
  deliver b1 (mints mint mint 0) (w_log w) [(TBase, receiver); (TQuote, receiver)].

(** partner/ix_withdraw_partner_surplus.rs:13-46, creator/ix_withdraw_creator_surplus.rs:13-46,
    migration/ix_withdraw_migration_fee.rs:17-50: the same accounts. *)
Definition exec_quote_payout (b : bank) (pool : addr) (config : Z) (qvault : addr) (qmint : Z) (dst : addr)
    (o : op) : res bank :=
  do c <- load_config b config ;;
  do _ <- samek (c_quote_mint c) qmint ;;
  do p <- load_pool b pool ;;
  do _ <- same (pa_qvault p) qvault ;;
  do _ <- samek (pa_config p) config ;;
  do _ <- load_tok b dst ;;
  do _ <- has_mint b qvault qmint ;;
  do r <- run_on b pool config (pa_bvault p) qvault (meta_at b pool) (lp_at b pool) o ;;
  let '(w, b1) := r in
  deliver b1 (mints 0 qmint 0) (w_log w) [(TQuote, dst)].

(** migration/withdraw_leftover.rs:14-53 *)
Definition exec_leftover (b : bank) (pool : addr) (config : Z) (bvault : addr) (bmint : Z) (dst : addr)
    (receiver : Z) : res bank :=
  do c <- load_config b config ;;
  do _ <- samek (c_leftover_receiver c) receiver ;;
  do p <- load_pool b pool ;;
  do _ <- samek (pa_bmint p) bmint ;;
  do _ <- same (pa_bvault p) bvault ;;
  do _ <- samek (pa_config p) config ;;
  do _ <- is_ata b dst (Ext receiver) bmint ;;
  do _ <- has_mint b bvault bmint ;;
  do r <- run_on b pool config bvault (pa_qvault p) (meta_at b pool) (lp_at b pool) OLeftover ;;
  let '(w, b1) := r in
  deliver b1 (mints bmint 0 0) (w_log w) [(TBase, dst)].

(** partner/ix_claim_partner_pool_creation_fee.rs:5-17 *)
Definition exec_partner_creation (b : bank) (pool : addr) (config : Z) (receiver : addr) (signer : Z)
  : res bank :=
  do _ <- load_config b config ;;
  do p <- load_pool b pool ;;
  do _ <- samek (pa_config p) config ;;
  do r <- run_on b pool config (pa_bvault p) (pa_qvault p) (meta_at b pool) (lp_at b pool)
                 (OPartnerCreationFee signer signer) ;;
  let '(w, b1) := r in
  deliver b1 (mints 0 0 0) (w_log w) [(TSol, receiver)].

(** operator/ix_claim_protocol_pool_creation_fee.rs:11-29; address = treasury::ID *)
Definition exec_protocol_creation (b : bank) (pool : addr) (config operator signer : Z) : res bank :=
  do _ <- load_config b config ;;
  do p <- load_pool b pool ;;
  do _ <- samek (pa_config p) config ;;
  do _ <- require (operator =? signer) EInvalidPermission ;;
  do r <- run_on b pool config (pa_bvault p) (pa_qvault p) (meta_at b pool) (lp_at b pool)
                 (OProtocolCreationFee signer) ;;
  let '(w, b1) := r in
  deliver b1 (mints 0 0 0) (w_log w) [(TSol, Ext (b_treasury b))].

(** creator/ix_transfer_pool_creator.rs:10-62: the metadata is the first remaining account; it is read
    only after a DAMM v1 migration. *)
Definition exec_transfer_creator (b : bank) (pool : addr) (config signer new : Z) (meta : option addr)
  : res bank :=
  do p <- load_pool b pool ;;
  do _ <- samek (pa_config p) config ;;
  do c <- load_config b config ;;
  do m <- (if (p_progress (pa_pool p) =? CreatedPool) && (c_migration_option c =? 0) then
             do a <- ok_or meta EInvalidAccount ;;
             do t <- load_meta b a ;; let '(m, vp, _) := t in
             do _ <- same vp pool ;;
             Ok (Some m)
           else Ok (meta_at b pool)) ;;
  do r <- run_on b pool config (pa_bvault p) (pa_qvault p) m (lp_at b pool) (OTransferCreator signer new) ;;
  Ok (snd r).

(** migration/create_locker.rs:11-71 *)
Definition exec_locker (b : bank) (pool : addr) (config : Z) (bvault : addr) (bmint creator : Z) : res bank :=
  do p <- load_pool b pool ;;
  do _ <- samek (pa_config p) config ;;
  do _ <- samek (p_creator (pa_pool p)) creator ;;
  do _ <- same (pa_bvault p) bvault ;;
  do _ <- samek (pa_bmint p) bmint ;;
  do _ <- has_mint b bvault bmint ;;
  do r <- run_on b pool config bvault (pa_qvault p) (meta_at b pool) (lp_at b pool) OCreateLocker ;;
  Ok (snd r).

(** migration_meteora_damm_create_metadata.rs:13-58 *)
Definition exec_metadata (b : bank) (pool : addr) (config : Z) (meta : addr) : res bank :=
  do p <- load_pool b pool ;;
  do _ <- samek (pa_config p) config ;;
  do _ <- same meta (MetaA pool) ;;
  do _ <- require (unused b meta) EOther ;;
  do r <- run_on b pool config (pa_bvault p) (pa_qvault p) None (lp_at b pool) OCreateMetadata ;;
  let '(w, b1) := r in
  do m <- ok_or (w_meta w) EOther ;;
  Ok (put b1 meta (AMeta m pool None)).

(** migrate_meteora_damm_initialize_pool.rs:13-116. Assumption about the DAMM v1 program: it creates the
    LP mint and the pool authority's associated account for it, so both addresses were unused. *)
Definition exec_migrate_v1 (b : bank) (pool : addr) (config : Z) (bvault qvault meta : addr) (lp_mint : Z)
    (config_ok : bool) (lp : Z) : res bank :=
  do p <- load_pool b pool ;;
  do _ <- same (pa_bvault p) bvault ;;
  do _ <- same (pa_qvault p) qvault ;;
  do _ <- samek (pa_config p) config ;;
  do t <- load_meta b meta ;; let '(m, vp, _) := t in
  do _ <- same vp pool ;;
  do _ <- require (unused b (Ext lp_mint)) EOther ;;
  do _ <- require (unused b (AtaA Auth lp_mint)) EOther ;;
  do r <- run_on b pool config bvault qvault (Some m) (lp_at b pool) (OMigrateV1 config_ok lp) ;;
  let '(w, b1) := r in
  do m' <- ok_or (w_meta w) EOther ;;
  Ok (put (put (put b1 meta (AMeta m' pool (Some lp_mint))) (Ext lp_mint) AMint)
          (AtaA Auth lp_mint) (ATok lp_mint Auth (w_lp w))).

(** migrate_damm_v2_initialize_pool.rs:33-129 *)
Definition exec_migrate_v2 (b : bank) (pool : addr) (config : Z) (bvault qvault : addr) (bmint qmint : Z)
    (x : damm_v2_ext) (now : Z) : res bank :=
  do p <- load_pool b pool ;;
  do _ <- same (pa_bvault p) bvault ;;
  do _ <- same (pa_qvault p) qvault ;;
  do _ <- samek (pa_config p) config ;;
  do _ <- has_mint b bvault bmint ;;
  do _ <- has_mint b qvault qmint ;;
  do r <- run_on b pool config bvault qvault (meta_at b pool) (lp_at b pool) (OMigrateV2 x now) ;;
  Ok (snd r).

(** meteora_damm_lock_lp_token.rs:13-76, meteora_damm_claim_lp_token.rs:10-52: the pool is read only; the
    config and the vaults are not passed. *)
Definition lp_accounts (b : bank) (pool meta : addr) (lp_mint : Z) (source : addr) : res v1meta :=
  do _ <- load_pool b pool ;;
  do t <- load_meta b meta ;; let '(m, vp, l) := t in
  do l <- ok_or l EInvalidAccount ;;
  do _ <- samek l lp_mint ;;
  do _ <- same vp pool ;;
  do _ <- is_ata b source Auth l ;;
  Ok m.
Definition lp_store (b : bank) (pool meta : addr) (lp_mint : Z) (source : addr) (w : world) : res bank :=
  do m' <- ok_or (w_meta w) EOther ;;
  Ok (put (put b meta (AMeta m' pool (Some lp_mint))) source (ATok lp_mint Auth (w_lp w))).

Definition exec_lock_lp (b : bank) (pool meta : addr) (lp_mint : Z) (source : addr) (owner : Z) : res bank :=
  do m <- lp_accounts b pool meta lp_mint source ;;
  do p <- load_pool b pool ;;
  do t <- load_tok b source ;;
  do r <- run_on b pool (pa_config p) (pa_bvault p) (pa_qvault p) (Some m) (snd t) (OLockLp owner) ;;
  lp_store b pool meta lp_mint source (fst r).

Definition exec_claim_lp (b : bank) (pool meta : addr) (lp_mint : Z) (source dst : addr) (owner : Z)
  : res bank :=
  do m <- lp_accounts b pool meta lp_mint source ;;
  do _ <- is_ata b dst (Ext owner) lp_mint ;;
  do p <- load_pool b pool ;;
  do t <- load_tok b source ;;
  do r <- run_on b pool (pa_config p) (pa_bvault p) (pa_qvault p) (Some m) (snd t) (OClaimLp owner) ;;
  do b1 <- lp_store b pool meta lp_mint source (fst r) ;;
  deliver b1 (mints 0 0 lp_mint) (w_log (fst r)) [(TLp, dst)].

(** admin/ix_create_operator_account.rs, admin/ix_close_operator_account.rs *)
Definition admin (b : bank) (signer : Z) : res unit :=
  require (existsb (fun k => k =? signer) (b_admins b)) EInvalidAdmin.
Definition exec_create_operator (b : bank) (signer who perm : Z) : res bank :=
  do _ <- admin b signer ;;
  do _ <- require (negb (is_some (find_operator (b_ops b) who))) EOther ;;
  do _ <- require ((0 <? perm) && (perm <? 4)) EInvalidPermission ;;
  Ok (set_b_ops b ((who, perm) :: b_ops b)).
Definition exec_close_operator (b : bank) (signer who : Z) : res bank :=
  do _ <- admin b signer ;;
  do _ <- require (is_some (find_operator (b_ops b) who)) EOther ;;
  Ok (set_b_ops b (filter (fun o => negb (fst o =? who)) (b_ops b))).

(** The token programs used directly: the owner of a token account may change its balance (spend, or
    receive what they mint) and its owner; a new account may hold anything. Closing is omitted. *)
Definition exec_owner (b : bank) (signer : Z) (a owner : addr) (n : Z) : res bank :=
  do t <- load_tok b a ;; let '(m, o, _) := t in
  do _ <- same o (Ext signer) ;;
  do _ <- require (u64b n) EOther ;;
  Ok (put b a (ATok m owner n)).
Definition exec_account (b : bank) (a : addr) (mint : Z) (owner : addr) (n : Z) : res bank :=
  do _ <- require (unused b a) EOther ;;
  do _ <- require (u64b n) EOther ;;
  do _ <- load_mint b mint ;;
  do _ <- require (match a with
                   | Ext _ => true
                   | AtaA o m => addr_eqb o owner && (m =? mint)
                   | _ => false
                   end) EOther ;;
  Ok (put b a (ATok mint owner n)).

Definition ix (b : bank) (i : instr) : res bank :=
  match i with
  | ICreateConfig key q su spl now qm cl lr => exec_config b key q su spl now qm cl lr
  | IInitPool c bm qm cr pa ty slot now => exec_init b c bm qm cr pa ty slot now
  | ISwap p c bv qv bm qm i o r s mo a0 a1 sl now v => exec_swap b p c bv qv bm qm i o r s mo a0 a1 sl now v
  | IClaimPartner p c bv qv bm qm ta tb s mb mq => exec_claim_partner b p c bv qv bm qm ta tb s mb mq
  | IClaimCreator p bv qv bm qm ta tb s mb mq => exec_claim_creator b p bv qv bm qm ta tb s mb mq
  | IClaimProtocol p c bv qv bm qm ta tb op s mb mq => exec_claim_protocol b p c bv qv bm qm ta tb op s mb mq
  | IZap p c v m r op s ma al ok => exec_zap b p c v m r op s ma al ok
  | IPartnerSurplus p c qv qm d s => exec_quote_payout b p c qv qm d (OPartnerSurplus s s)
  | ICreatorSurplus p c qv qm d s => exec_quote_payout b p c qv qm d (OCreatorSurplus s s)
  | IMigrationFee p c qv qm d s f => exec_quote_payout b p c qv qm d (OMigrationFee s s f)
  | ILeftover p c bv bm d r => exec_leftover b p c bv bm d r
  | IPartnerCreationFee p c r s => exec_partner_creation b p c r s
  | IProtocolCreationFee p c op s => exec_protocol_creation b p c op s
  | ITransferCreator p c s n m => exec_transfer_creator b p c s n m
  | ICreateLocker p c bv bm cr => exec_locker b p c bv bm cr
  | ICreateMetadata p c m => exec_metadata b p c m
  | IMigrateV1 p c bv qv m l ok lp => exec_migrate_v1 b p c bv qv m l ok lp
  | IMigrateV2 p c bv qv bm qm x now => exec_migrate_v2 b p c bv qv bm qm x now
  | ILockLp p m l s o => exec_lock_lp b p m l s o
  | IClaimLp p m l s d o => exec_claim_lp b p m l s d o
  | ICreateOperator s w pe => exec_create_operator b s w pe
  | ICloseOperator s w => exec_close_operator b s w
  | XDeposit a m n => credit b a m n
  | XSol a n => credit_sol b a n
  | XOwner s a o n => exec_owner b s a o n
  | XMint m => do _ <- require (unused b (Ext m)) EOther ;; Ok (put b (Ext m) AMint)
  | XAccount a m o n => exec_account b a m o n
  end.

(** A failed instruction is rolled back by the runtime. *)
Definition bstep (b : bank) (i : instr) : bank := match ix b i with Ok b' => b' | Err _ => b end.
Definition brun (b : bank) (is : list instr) : bank := fold_left bstep is b.

(** Before anything happened. *)
Definition genesis (admins : list Z) (treasury : Z) : bank := mkBank (fun _ => None) admins [] treasury.
