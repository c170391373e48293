(** * The token programs, as far as this program relies on them.
      Models which quote mints are accepted (utils/token.rs:26-51, 120-138), which base mints are created
      (initialize_pool/*.rs), and how SPL Token and Token-2022 treat mints and token accounts over time.
      The two token programs are not part of /repo: [texec] restates their public behaviour. Decimals,
      multisignatures, lamports, confidential balances and interface data are left out. *)
From Coq Require Import ZArith List Bool.
From Verif Require Import Base MathModel CurveModel FeeModel ConfigModel.
Import ListNotations.
Open Scope Z_scope.

Inductive tprogram := SplToken | Token2022.

(** spl_token_2022 [ExtensionType], the extensions of mints. *)
Inductive extension :=
  | TransferFeeConfig (bps maximum : Z) (authority : option Z)
  | MintCloseAuthority (authority : option Z)
  | ConfidentialTransferMint
  | DefaultAccountState (frozen : bool)
  | NonTransferable
  | InterestBearingConfig
  | PermanentDelegate (delegate : option Z)
  | TransferHook (program : option Z)
  | ConfidentialTransferFeeConfig
  | MetadataPointer
  | TokenMetadata
  | GroupPointer
  | TokenGroup
  | GroupMemberPointer
  | TokenGroupMember
  | ConfidentialMintBurn
  | ScaledUiAmount
  | Pausable (authority : option Z) (paused : bool).

Record mint := mkMint {
  mi_program : tprogram;
  mi_native : bool;               (* wrapped SOL *)
  mi_authority : option Z;
  mi_freeze : option Z;
  mi_supply : Z;
  mi_ext : list extension }.

Record taccount := mkTacc {
  ta_mint : Z;
  ta_owner : Z;
  ta_amount : Z;
  ta_frozen : bool;
  ta_delegate : option (Z * Z);   (* delegate and its allowance *)
  ta_close : option Z }.

Record tstate := mkT { t_mints : Z -> option mint; t_accs : Z -> option taccount }.
Definition t_empty : tstate := mkT (fun _ => None) (fun _ => None).

Definition upd {A} (f : Z -> option A) (k : Z) (v : option A) : Z -> option A :=
  fun y => if k =? y then v else f y.
Definition set_mint (s : tstate) (k : Z) (m : mint) : tstate := mkT (upd (t_mints s) k (Some m)) (t_accs s).
Definition set_acc (s : tstate) (k : Z) (a : taccount) : tstate := mkT (t_mints s) (upd (t_accs s) k (Some a)).
Definition with_amount (a : taccount) (n : Z) : taccount :=
  mkTacc (ta_mint a) (ta_owner a) n (ta_frozen a) (ta_delegate a) (ta_close a).
Definition with_delegate (a : taccount) (d : option (Z * Z)) : taccount :=
  mkTacc (ta_mint a) (ta_owner a) (ta_amount a) (ta_frozen a) d (ta_close a).
Definition with_supply (m : mint) (n : Z) : mint :=
  mkMint (mi_program m) (mi_native m) (mi_authority m) (mi_freeze m) n (mi_ext m).
Definition with_ext (m : mint) (l : list extension) : mint :=
  mkMint (mi_program m) (mi_native m) (mi_authority m) (mi_freeze m) (mi_supply m) l.

(** ** This program's checks *)

(** utils/token.rs:131-136: the extensions that do not make the mint unsupported. *)
Definition allowed_extension (e : extension) : bool :=
  match e with MetadataPointer | TokenMetadata => true | _ => false end.

(** utils/token.rs:120-138 *)
Definition is_supported_quote_mint (m : mint) : res bool :=
  match mi_program m with
  | SplToken => Ok true
  | Token2022 =>
    do _ <- require (negb (mi_native m)) EUnsupportNativeMintToken2022 ;;
    Ok (forallb allowed_extension (mi_ext m))
  end.

(** utils/token.rs:34-44 [get_token_program_flags]: 0 SPL Token, 1 Token-2022. *)
Definition token_program_flag (m : mint) : Z :=
  match mi_program m with SplToken => 0 | Token2022 => 1 end.
(** utils/token.rs:46-52 *)
Definition token_program_from_flag (f : Z) : res tprogram :=
  if f =? 0 then Ok SplToken else if f =? 1 then Ok Token2022 else Err ETypeCastFailed.

(** partner/ix_create_config.rs:372-379, 624-627, 720: config creation for the quote mint [m] at [qmint]. *)
Definition create_config_for (q : config_params) (m : mint) (now qmint claimer leftover : Z) : res config :=
  do ok <- is_supported_quote_mint m ;;
  create_config q ok (token_program_flag m =? 0) now qmint claimer leftover.

(** ** The token programs *)

Definition pausable (m : mint) : bool :=
  existsb (fun e => match e with Pausable _ true => true | _ => false end) (mi_ext m).
Definition non_transferable (m : mint) : bool :=
  existsb (fun e => match e with NonTransferable => true | _ => false end) (mi_ext m).
Definition has_hook (m : mint) : bool :=
  existsb (fun e => match e with TransferHook (Some _) => true | _ => false end) (mi_ext m).
Definition default_frozen (m : mint) : bool :=
  existsb (fun e => match e with DefaultAccountState true => true | _ => false end) (mi_ext m).
Definition is_permanent_delegate (m : mint) (k : Z) : bool :=
  existsb (fun e => match e with PermanentDelegate (Some d) => d =? k | _ => false end) (mi_ext m).
Definition may_close_mint (m : mint) (k : Z) : bool :=
  existsb (fun e => match e with MintCloseAuthority (Some d) => d =? k | _ => false end) (mi_ext m).
Definition is_pointer (p : extension) (m : mint) : bool :=
  existsb (fun e => match p, e with
                    | MetadataPointer, MetadataPointer | GroupPointer, GroupPointer
                    | GroupMemberPointer, GroupMemberPointer => true
                    | _, _ => false end) (mi_ext m).
Fixpoint transfer_fee (l : list extension) (a : Z) : Z :=
  match l with
  | TransferFeeConfig bps mx _ :: _ => Z.min mx (cdiv (a * bps) 10000)
  | _ :: r => transfer_fee r a
  | [] => 0
  end.

(** Who may take [a] tokens out of account [x] of mint [m]; the account with what is left of the allowance. *)
Definition authorised (m : mint) (x : taccount) (signer a : Z) : res taccount :=
  if (ta_owner x =? signer) || is_permanent_delegate m signer then Ok x
  else match ta_delegate x with
       | Some (d, n) => if (d =? signer) && (a <=? n) then Ok (with_delegate x (Some (d, n - a)))
                        else Err EUnauthorized
       | None => Err EUnauthorized
       end.

Inductive top :=
  (* transfer_checked; [hook_ok] is the verdict of the mint's transfer hook program *)
  | TTransfer (signer src dst a : Z) (hook_ok : bool)
  | TMintTo (signer mint dst a : Z)
  | TBurn (signer src a : Z)
  | TFreeze (signer acc : Z) (on : bool)
  | TApprove (signer acc delegate n : Z)
  | TRevoke (signer acc : Z)
  | TSetOwner (signer acc new : Z)
  | TSetClose (signer acc new : Z)
  | TCloseAccount (signer acc : Z)
  | TSetMintAuthority (signer mint : Z) (new : option Z)
  | TSetFreezeAuthority (signer mint : Z) (new : option Z)
  (* a holder of an extension's authority changes that extension *)
  | TSetExtension (signer mint : Z) (old new : extension)
  | TCloseMint (signer mint : Z)
  (* extensions that may be added to a mint in use, if it has the matching pointer *)
  | TInitMetadata (signer mint : Z)
  | TInitGroup (signer mint : Z)
  | TInitMember (signer mint : Z)
  (* new accounts *)
  | TInitMint (key : Z) (m : mint)
  | TInitAccount (key mint owner : Z)
  (* lamports sent to a wrapped SOL account become tokens *)
  | TSync (acc n : Z).

(** What an extension's authority may change it to (the kind stays). Simplification: the default account state
    and the hook program may be changed by anybody, which only adds behaviours. *)
Definition may_change (signer : Z) (old new : extension) : bool :=
  let is o := match o with Some k => k =? signer | None => false end in
  match old, new with
  | TransferFeeConfig _ _ k, TransferFeeConfig _ _ _ | MintCloseAuthority k, MintCloseAuthority _
  | PermanentDelegate k, PermanentDelegate _ | Pausable k _, Pausable _ _ => is k
  | DefaultAccountState _, DefaultAccountState _ | TransferHook _, TransferHook _ => true
  | _, _ => false
  end.

Definition same_kind (a b : extension) : bool :=
  match a, b with
  | TransferFeeConfig _ _ _, TransferFeeConfig _ _ _ | MintCloseAuthority _, MintCloseAuthority _
  | PermanentDelegate _, PermanentDelegate _ | Pausable _ _, Pausable _ _
  | DefaultAccountState _, DefaultAccountState _ | TransferHook _, TransferHook _ => true
  | _, _ => false
  end.

Definition get_mint (s : tstate) (k : Z) : res mint := ok_or (t_mints s k) EInvalidAccount.
Definition get_acc (s : tstate) (k : Z) : res taccount := ok_or (t_accs s k) EInvalidAccount.
Definition is_key (o : option Z) (k : Z) : bool := match o with Some x => x =? k | None => false end.
Definition u64 (z : Z) : bool := (0 <=? z) && (z <=? U64_MAX).

Definition texec (s : tstate) (o : top) : res tstate :=
  match o with
  | TTransfer signer src dst a hook_ok =>
    do _ <- require (u64 a) EInvalidInput ;;
    do x <- get_acc s src ;;
    do y <- get_acc s dst ;;
    do _ <- require (ta_mint x =? ta_mint y) EInvalidAccount ;;
    do m <- get_mint s (ta_mint x) ;;
    do _ <- require (negb (ta_frozen x) && negb (ta_frozen y) && negb (pausable m) && negb (non_transferable m))
                    EOther ;;
    do _ <- require (a <=? ta_amount x) ETokenInsufficientFunds ;;
    do x1 <- authorised m x signer a ;;
    do _ <- require (negb (has_hook m) || hook_ok) EOther ;;
    if src =? dst then Ok (set_acc s src x1)
    else
      do n <- sadd U64_MAX (ta_amount y) (a - transfer_fee (mi_ext m) a) ;;
      Ok (set_acc (set_acc s src (with_amount x1 (ta_amount x1 - a))) dst (with_amount y n))
  | TMintTo signer k dst a =>
    do _ <- require (u64 a) EInvalidInput ;;
    do m <- get_mint s k ;;
    do _ <- require (is_key (mi_authority m) signer && negb (pausable m)) EUnauthorized ;;
    do y <- get_acc s dst ;;
    do _ <- require ((ta_mint y =? k) && negb (ta_frozen y) && negb (mi_native m)) EInvalidAccount ;;
    do t <- sadd U64_MAX (mi_supply m) a ;;
    do n <- sadd U64_MAX (ta_amount y) a ;;
    Ok (set_acc (set_mint s k (with_supply m t)) dst (with_amount y n))
  | TBurn signer src a =>
    do _ <- require (u64 a) EInvalidInput ;;
    do x <- get_acc s src ;;
    do m <- get_mint s (ta_mint x) ;;
    do _ <- require (negb (ta_frozen x) && negb (pausable m) && negb (mi_native m)) EOther ;;
    do _ <- require (a <=? ta_amount x) ETokenInsufficientFunds ;;
    do x1 <- authorised m x signer a ;;
    Ok (set_acc (set_mint s (ta_mint x) (with_supply m (mi_supply m - a))) src
                (with_amount x1 (ta_amount x1 - a)))
  | TFreeze signer k on =>
    do x <- get_acc s k ;;
    do m <- get_mint s (ta_mint x) ;;
    do _ <- require (is_key (mi_freeze m) signer) EUnauthorized ;;
    Ok (set_acc s k (mkTacc (ta_mint x) (ta_owner x) (ta_amount x) on (ta_delegate x) (ta_close x)))
  | TApprove signer k d n =>
    do x <- get_acc s k ;;
    do _ <- require ((ta_owner x =? signer) && u64 n) EUnauthorized ;;
    Ok (set_acc s k (with_delegate x (Some (d, n))))
  | TRevoke signer k =>
    do x <- get_acc s k ;;
    do _ <- require (ta_owner x =? signer) EUnauthorized ;;
    Ok (set_acc s k (with_delegate x None))
  | TSetOwner signer k new =>
    do x <- get_acc s k ;;
    do _ <- require (ta_owner x =? signer) EUnauthorized ;;
    Ok (set_acc s k (mkTacc (ta_mint x) new (ta_amount x) (ta_frozen x) None (ta_close x)))
  | TSetClose signer k new =>
    do x <- get_acc s k ;;
    do _ <- require (match ta_close x with Some c => c =? signer | None => ta_owner x =? signer end) EUnauthorized ;;
    Ok (set_acc s k (mkTacc (ta_mint x) (ta_owner x) (ta_amount x) (ta_frozen x) (ta_delegate x) (Some new)))
  | TCloseAccount signer k =>
    do x <- get_acc s k ;;
    do m <- get_mint s (ta_mint x) ;;
    do _ <- require (match ta_close x with Some c => c =? signer | None => ta_owner x =? signer end) EUnauthorized ;;
    do _ <- require ((ta_amount x =? 0) || mi_native m) EOther ;;
    Ok (mkT (t_mints s) (upd (t_accs s) k None))
  | TSetMintAuthority signer k new =>
    do m <- get_mint s k ;;
    do _ <- require (is_key (mi_authority m) signer) EUnauthorized ;;
    Ok (set_mint s k (mkMint (mi_program m) (mi_native m) new (mi_freeze m) (mi_supply m) (mi_ext m)))
  | TSetFreezeAuthority signer k new =>
    do m <- get_mint s k ;;
    do _ <- require (is_key (mi_freeze m) signer) EUnauthorized ;;
    Ok (set_mint s k (mkMint (mi_program m) (mi_native m) (mi_authority m) new (mi_supply m) (mi_ext m)))
  | TSetExtension signer k old new =>
    do m <- get_mint s k ;;
    do _ <- require (existsb (fun e => same_kind old e && may_change signer e new) (mi_ext m)) EUnauthorized ;;
    Ok (set_mint s k (with_ext m (map (fun e => if same_kind old e && may_change signer e new then new else e)
                                      (mi_ext m))))
  | TCloseMint signer k =>
    do m <- get_mint s k ;;
    do _ <- require (may_close_mint m signer && (mi_supply m =? 0)) EUnauthorized ;;
    Ok (mkT (upd (t_mints s) k None) (t_accs s))
  | TInitMetadata signer k =>
    do m <- get_mint s k ;;
    do _ <- require (is_key (mi_authority m) signer && is_pointer MetadataPointer m) EUnauthorized ;;
    Ok (set_mint s k (with_ext m (mi_ext m ++ [TokenMetadata])))
  | TInitGroup signer k =>
    do m <- get_mint s k ;;
    do _ <- require (is_key (mi_authority m) signer && is_pointer GroupPointer m) EUnauthorized ;;
    Ok (set_mint s k (with_ext m (mi_ext m ++ [TokenGroup])))
  | TInitMember signer k =>
    do m <- get_mint s k ;;
    do _ <- require (is_key (mi_authority m) signer && is_pointer GroupMemberPointer m) EUnauthorized ;;
    Ok (set_mint s k (with_ext m (mi_ext m ++ [TokenGroupMember])))
  | TInitMint k m =>
    do _ <- require (match t_mints s k, t_accs s k with None, None => true | _, _ => false end) EOther ;;
    do _ <- require ((mi_supply m =? 0)
                     && (match mi_program m with SplToken => (length (mi_ext m) =? 0)%nat | Token2022 => true end))
                    EOther ;;
    Ok (set_mint s k m)
  | TInitAccount k mk owner =>
    do _ <- require (match t_mints s k, t_accs s k with None, None => true | _, _ => false end) EOther ;;
    do m <- get_mint s mk ;;
    Ok (set_acc s k (mkTacc mk owner 0 (default_frozen m) None None))
  | TSync k n =>
    do _ <- require (u64 n) EInvalidInput ;;
    do x <- get_acc s k ;;
    do m <- get_mint s (ta_mint x) ;;
    do _ <- require (mi_native m) EOther ;;
    do t <- sadd U64_MAX (ta_amount x) n ;;
    Ok (set_acc s k (with_amount x t))
  end.

(** A failed instruction changes nothing. *)
Definition tstep (s : tstate) (o : top) : tstate := match texec s o with Ok s' => s' | Err _ => s end.
Definition trun (s : tstate) (ops : list top) : tstate := fold_left tstep ops s.

(** ** The base mint of a new pool
    initialize_pool/ix_initialize_virtual_pool_with_spl_token.rs:54-66, 100-110, 186-220 and
    ix_initialize_virtual_pool_with_token2022.rs:40-52, 139-244: the mint, its metadata (inside the mint for
    Token-2022), the vault, the minting of the supply, the handing over of the mint authority. [auth] is the
    pool authority; the freeze authority is never set. *)
Definition base_mint_ops (ty auth bmint vault supply : Z) (minter : option Z) : list top :=
  (if ty =? 0 then [TInitMint bmint (mkMint SplToken false (Some auth) None 0 [])]
   else [TInitMint bmint (mkMint Token2022 false (Some auth) None 0 [MetadataPointer])])
  ++ [TInitAccount vault bmint auth]
  ++ (if ty =? 0 then [] else [TInitMetadata auth bmint])
  ++ [TMintTo auth bmint vault supply; TSetMintAuthority auth bmint minter].
