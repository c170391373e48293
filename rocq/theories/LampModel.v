(** * Lamports: every instruction as the changes it makes to account balances, owners and sizes.

    The pool authority is one address shared by all pools; it signs calls to other programs and
    advances the rent of the accounts they create. What an external program does is arbitrary within
    the rules of the Solana runtime ([external]). Amounts and data are not modelled here. *)
From Coq Require Import ZArith List Bool Lia.
Import ListNotations.
Open Scope Z_scope.

(** Addresses: the pool authority (const_pda.rs:1-30), other addresses derived from seeds of this
    program, and everything else (key pairs and addresses of other programs). *)
Inductive key := KAuth | KPda (n : Z) | KWallet (n : Z).
Definition key_eqb (a b : key) : bool :=
  match a, b with
  | KAuth, KAuth => true
  | KPda m, KPda n => m =? n
  | KWallet m, KWallet n => m =? n
  | _, _ => false
  end.

Inductive prog := System | Us | Other (n : Z).
Record info := mkInfo { lam : Z; own : prog; len : Z }.
Definition ledger := key -> info.
Definition set (L : ledger) (k : key) (i : info) : ledger := fun x => if key_eqb x k then i else L x.
Definition credit (L : ledger) (k : key) (n : Z) : ledger :=
  set L k (mkInfo (lam (L k) + n) (own (L k)) (len (L k))).

(** What the runtime supplies: the rent minimum of a size, and which wallet addresses other
    programs can sign for. *)
Record env := mkEnv { rent : Z -> Z; foreign : Z -> bool }.

(** An instruction step: which ledgers can follow a ledger. *)
Definition step := ledger -> ledger -> Prop.
Definition skip : step := fun L L' => L' = L.
Definition seq (a b : step) : step := fun L L' => exists M, a L M /\ b M L'.
Definition opt (c : bool) (a : step) : step := if c then a else skip.

(** ** The runtime *)

(** A system account or one of ours that nobody signs for: it can only be credited. *)
Definition kept (L L' : ledger) (k : key) : Prop :=
  lam (L k) <= lam (L' k) /\ own (L' k) = own (L k) /\ len (L' k) = len (L k).

(** A call to another program with the given signers. It may change accounts it owns (any account
    owned by [Other]) and system accounts that sign; it cannot take from, resize or reassign
    accounts of this program (the runtime forbids calling back into it), nor system accounts that
    do not sign, unless they are addresses it can sign for itself. *)
Definition external (e : env) (signers : list key) : step := fun L L' =>
  forall k, 0 <= lam (L' k)
    /\ (own (L k) = Us -> kept L L' k)
    /\ (own (L k) = System -> ~ In k signers ->
        (forall n, k = KWallet n -> foreign e n = false) -> kept L L' k).

(** A call to a token program: it changes only accounts it owns and credits others. *)
Definition token_call : step := fun L L' =>
  forall k, 0 <= lam (L' k) /\ (own (L k) = Us \/ own (L k) = System -> kept L L' k).

(** The system program: transfer, and the creation of an account as Anchor's [init] does it
    (transfer the missing rent, allocate, assign). *)
Definition sys_transfer (from to : key) (n : Z) : step := fun L L' =>
  own (L from) = System /\ len (L from) = 0 /\ 0 <= n <= lam (L from)
  /\ L' = credit (credit L from (- n)) to n.
Definition init (e : env) (payer : Z) (k : key) (o : prog) (size : Z) : step := fun L L' =>
  own (L k) = System /\ len (L k) = 0
  /\ exists M, sys_transfer (KWallet payer) k (Z.max 0 (rent e size - lam (L k))) L M
     /\ L' = set M k (mkInfo (lam (M k)) o size).

(** state/virtual_pool.rs:163: 8 + VirtualPool::INIT_SPACE; state/operator.rs:31; state/config.rs
    (1040 bytes); meteora_damm_metadata_state.rs:37. *)
Definition POOL_SIZE : Z := 424.
Definition OPERATOR_SIZE : Z := 72.
Definition CLAIM_OPERATOR_SIZE : Z := 168.
Definition CONFIG_SIZE : Z := 1048.
Definition METADATA_SIZE : Z := 280.

(** Anchor's [close]: all lamports go to the receiver, which is another account. Only operator
    accounts are closed; the discriminator check appears as the size (state/operator.rs:31,
    state/claim_fee_operator.rs:14). *)
Definition close (k : key) (receiver : key) : step := fun L L' =>
  own (L k) = Us /\ (len (L k) = OPERATOR_SIZE \/ len (L k) = CLAIM_OPERATOR_SIZE) /\ 0 <= lam (L k) /\ k <> receiver
  /\ L' = set (credit L receiver (lam (L k))) k (mkInfo 0 System 0).

(** ** The helpers *)

(** utils/cpi_checker.rs:4-32 [cpi_with_account_lamport_and_owner_checking] *)
Definition cpi_checked (cpi : step) (k : key) : step := fun L L' =>
  cpi L L' /\ lam (L k) <= lam (L' k) /\ own (L k) = own (L' k) /\ len (L k) = len (L' k).

(** instructions/migration/flash_rent.rs:6-25 *)
Definition flash_rent (lender borrower : key) (op : step) : step := fun L L' =>
  exists M, op L M
    /\ let consumed := Z.max 0 (lam (L lender) - lam (M lender)) in
       if 0 <? consumed then sys_transfer borrower lender consumed M L' else L' = M.

(** utils/token.rs:140-157 [update_account_lamports_to_minimum_balance] *)
Definition top_up (e : env) (k : key) (payer : Z) : step := fun L L' =>
  if lam (L k) <? rent e (len (L k))
  then sys_transfer (KWallet payer) k (rent e (len (L k)) - lam (L k)) L L' else L' = L.

(** utils/token.rs:173-189 [transfer_lamports_from_pool_account]; the pool is loaded as an account
    of this program with the pool's discriminator, so it has the pool's size. *)
Definition pool_pays (e : env) (pool : Z) (to : key) (n : Z) : step := fun L L' =>
  own (L (KPda pool)) = Us /\ len (L (KPda pool)) = POOL_SIZE /\ 0 <= n <= lam (L (KPda pool))
  /\ L' = credit (credit L (KPda pool) (- n)) to n
  /\ rent e POOL_SIZE <= lam (L' (KPda pool)).

(** ** The instructions *)

Definition TOKEN : prog := Other 0.
(** The wallets that sign the transaction. *)
Definition wallets (l : list Z) : list key := map KWallet l.
Definition signed (l : list Z) : list key := KAuth :: wallets l.

Fixpoint repeat_token (n : nat) : step :=
  match n with O => skip | S m => seq token_call (repeat_token m) end.

Inductive instr :=
  | ICreateConfig (payer : Z) (config : Z)
  | IOwnAccount (payer : Z) (account : Z) (size : Z)
  | ICloseOperator (operator : Z) (receiver : key)
  | IInitSpl (payer creator mint pool bvault qvault fee : Z)
  | IInit2022 (payer creator mint pool bvault qvault fee : Z)
  | ITokens (calls : nat)
  | IClaimCreation (pool : Z) (receiver : key) (amount : Z)
  | ICreateLocker (payer : Z) (signers : list Z)
  | IMigrateV1 (payer : Z) (signers : list Z) (burn : bool)
  | ILockLp (signers : list Z)
  | IMigrateV2 (payer : Z) (signers : list Z) (lock1 second lock2 burn : bool)
  | IOutside (signers : list Z).

(** The accounts created by pool creation, in the order of the account list. *)
Definition create_pool_accounts (e : env) (payer mint mint_size pool bvault qvault : Z) (qsize : Z) : step :=
  seq (init e payer (KWallet mint) TOKEN mint_size)
  (seq (init e payer (KPda pool) Us POOL_SIZE)
  (seq (init e payer (KPda bvault) TOKEN 165)
       (init e payer (KPda qvault) TOKEN qsize))).

Definition charge_fee (payer pool fee : Z) : step :=
  opt (0 <? fee) (sys_transfer (KWallet payer) (KPda pool) fee).

Definition run1 (e : env) (i : instr) : step :=
  match i with
  (* instructions/partner/ix_create_config.rs:538-560; the config is a new key pair *)
  | ICreateConfig payer config => init e payer (KWallet config) Us CONFIG_SIZE
  (* ix_create_operator_account.rs:10-21, ix_create_partner_metadata.rs:18-30,
     ix_create_virtual_pool_metadata.rs:20-32, migration_meteora_damm_create_metadata.rs:18-30:
     one account at an address derived from seeds; its size is fixed or given by the strings *)
  | IOwnAccount payer account size => fun L L' => 0 <= size /\ init e payer (KPda account) Us size L L'
  (* ix_close_operator_account.rs:5-20, ix_close_claim_protocol_fee_operator.rs:6-34 *)
  | ICloseOperator operator receiver => close (KPda operator) receiver
  (* ix_initialize_virtual_pool_with_spl_token.rs:45-137, 139-262: metadata is created by the
     metadata program in two calls signed by the pool authority, then mint, then mint authority *)
  | IInitSpl payer creator mint pool bvault qvault fee => fun L L' => exists qsize,
      seq (create_pool_accounts e payer mint 82 pool bvault qvault qsize)
      (seq (cpi_checked (seq (external e (signed [payer; creator; mint]))
                             (external e (signed [payer; creator; mint]))) KAuth)
      (seq token_call (seq token_call (charge_fee payer pool fee)))) L L'
  (* ix_initialize_virtual_pool_with_token2022.rs:33-115, 117-283: all calls go to the token program *)
  | IInit2022 payer creator mint pool bvault qvault fee => fun L L' => exists msize qsize,
      seq (create_pool_accounts e payer mint msize pool bvault qvault qsize)
      (seq token_call
      (seq (top_up e (KWallet mint) payer)
      (seq token_call (seq token_call (seq token_call (seq token_call (charge_fee payer pool fee))))))) L L'
  (* swap, claims and withdrawals of tokens, burns, LP claims, creator transfer: only token calls *)
  | ITokens calls => repeat_token calls
  (* ix_claim_protocol_pool_creation_fee.rs:34-68, ix_claim_partner_pool_creation_fee.rs:22-55 *)
  | IClaimCreation pool receiver amount => opt (0 <? amount) (pool_pays e pool receiver amount)
  (* create_locker.rs:73-139 *)
  | ICreateLocker payer signers =>
      cpi_checked (flash_rent KAuth (KWallet payer) (external e (signed signers))) KAuth
  (* migrate_meteora_damm_initialize_pool.rs:146-211, 213-330 *)
  | IMigrateV1 payer signers burn =>
      seq (cpi_checked (flash_rent KAuth (KWallet payer) (external e (signed signers))) KAuth)
          (opt burn token_call)
  (* meteora_damm_lock_lp_token.rs:78-108 *)
  | ILockLp signers => cpi_checked (external e (signed signers)) KAuth
  (* migrate_damm_v2_initialize_pool.rs:131-240 create_pool, 242-323 lock_liquidity_position (up to
     two calls), 325-344 set_authority_for_position, 346-412 create_second_position: its first call
     carries no signature of the pool authority *)
  | IMigrateV2 payer signers lock1 second lock2 burn =>
      let rented op := cpi_checked (flash_rent KAuth (KWallet payer) op) KAuth in
      let locking := rented (seq (external e (signed signers)) (external e (signed signers))) in
      seq (rented (external e (signed signers)))
      (seq (opt lock1 locking)
      (seq token_call
      (seq (opt second (seq (external e (wallets signers))
                       (seq (cpi_checked (external e (signed signers)) KAuth)
                       (seq (opt lock2 locking) token_call))))
           (opt burn token_call))))
  (* any transaction that does not call this program *)
  | IOutside signers => external e (wallets signers)
  end.

(** A history of instructions. *)
Fixpoint lamps (e : env) (is : list instr) : step :=
  match is with [] => skip | i :: rest => seq (run1 e i) (lamps e rest) end.
